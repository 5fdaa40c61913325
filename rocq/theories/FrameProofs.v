(** Lemmas for C65: every decoder follows its frame. *)

From Verif Require Import Base Io IoProofs Spec SpecWire SpecLayout SpecCodecs SpecUtf8 SpecFrame Codec Model_encoding EncodingProofs
  Model_common CommonProofs Model_v1 Model_policy Model_v2 V2TxnProofs Model_consensus BasicProofs ConsensusProofs.
From Verif Require GrammarProofs.
Local Open Scope N_scope.

(** ** Agreement and coverage *)

Definition says {A} (v : verdict) : result A := match v with Stopped p => RPanic p | Refused e => RErr e end.

Record Agrees {A} (d : dec A) (f : frame) : Prop := {
  ag_whole : forall w rest, whole f w -> exists a, run d (w ++ rest) = ROk a rest;
  ag_ends : forall v w rest, ends f v w -> run d (w ++ rest) = says v;
  ag_short : forall e w, short f e w -> run d w = RErr e }.

Definition Covered (f : frame) : Prop := forall bs,
  (exists w rest, whole f w /\ bs = w ++ rest) \/
  (exists v w rest, ends f v w /\ bs = w ++ rest) \/ exists e, short f e bs.

(** ** Building blocks *)

Lemma ag_ret : forall A (a : A), Agrees (DRet a) nothing.
Proof. intros A a. split; [|now intros|now intros]. intros w rest ->. exists a. reflexivity. Qed.
Lemma cov_nothing : Covered nothing.
Proof. intros bs. left. exists [], bs. split; reflexivity. Qed.

Lemma ag_panic : forall A p, Agrees (@DPanic A p) (end_with (Stopped p)).
Proof. intros A p. split; [now intros| |now intros]. intros v w rest [-> ->]. reflexivity. Qed.
Lemma ag_err : forall A e, Agrees (@DErr A e) (end_with (Refused e)).
Proof. intros A p. split; [now intros| |now intros]. intros v w rest [-> ->]. reflexivity. Qed.
Lemma cov_end : forall v, Covered (end_with v).
Proof. intros v bs. right. left. exists v, [], bs. repeat split. Qed.

Lemma ag_require : forall A (d : dec A) (P : Prop) v, (P -> exists a, d = DRet a) ->
  (~ P -> d = match v with Stopped p => DPanic p | Refused e => DErr e end) -> Agrees d (require P v).
Proof.
  intros A d P v H1 H2. split; [| |now intros].
  - intros w rest [Hp ->]. destruct (H1 Hp) as [a ->]. exists a. reflexivity.
  - intros v' w rest (Hp & -> & ->). rewrite (H2 Hp). destruct v; reflexivity.
Qed.
Lemma cov_require : forall (P : Prop) v, P \/ ~ P -> Covered (require P v).
Proof.
  intros P v [H|H] bs; [left; exists [], bs; repeat split; auto|].
  right. left. exists v, [], bs. repeat split; auto.
Qed.

Lemma cov_raw : forall e n, Covered (raw_or e n).
Proof.
  intros e n bs. destruct (le_lt_dec n (length bs)) as [H|H].
  - left. exists (firstn n bs), (skipn n bs). split; [cbn; now apply firstn_length_le|now rewrite firstn_skipn].
  - right. right. exists e. split; auto.
Qed.
Lemma ag_read : forall A e n (k : bytes -> A), Agrees (DRead n e (fun b => DRet (k b))) (raw_or e n).
Proof.
  intros A e n k. split; [|now intros|].
  - intros w rest H. exists (k w). cbn [run]. now rewrite (splitn_app n w rest H).
  - intros e' w [-> H]. cbn [run]. apply splitn_none in H. now rewrite H.
Qed.

Lemma ag_follow : forall A B (d : dec A) (k : A -> dec B) f g,
  Agrees d f -> (forall a, Agrees (k a) g) -> Agrees (dbind d k) (follow f g).
Proof.
  intros A B d k f g Hd Hk. split.
  - intros w rest (u & v & -> & Hu & Hv). destruct (ag_whole d f Hd u (v ++ rest) Hu) as [a E].
    rewrite run_bind, <- app_assoc, E. apply (ag_whole _ _ (Hk a)), Hv.
  - intros x w rest [H|(u & v & -> & Hu & Hv)].
    + rewrite run_bind, (ag_ends d f Hd x w rest H). destruct x; reflexivity.
    + destruct (ag_whole d f Hd u (v ++ rest) Hu) as [a E]. rewrite run_bind, <- app_assoc, E. apply (ag_ends _ _ (Hk a)), Hv.
  - intros e w [H|(u & v & -> & Hu & Hv)].
    + now rewrite run_bind, (ag_short d f Hd e w H).
    + destruct (ag_whole d f Hd u v Hu) as [a E]. rewrite run_bind, E. apply (ag_short _ _ (Hk a)), Hv.
Qed.
Lemma cov_follow : forall f g, Covered f -> Covered g -> Covered (follow f g).
Proof.
  intros f g Hf Hg bs. destruct (Hf bs) as [(w & rest & H & ->)|[(v & w & rest & H & ->)|(e & H)]].
  - destruct (Hg rest) as [(w' & r' & H' & ->)|[(v & w' & r' & H' & ->)|(e & H')]].
    + left. exists (w ++ w'), r'. split; [exists w, w'; auto|apply app_assoc].
    + right. left. exists v, (w ++ w'), r'. split; [right; exists w, w'; auto|apply app_assoc].
    + right. right. exists e. right. exists w, rest. auto.
  - right. left. exists v, w, rest. split; [left; exact H|reflexivity].
  - right. right. exists e. left. exact H.
Qed.
Lemma cov_parts : forall l, Forall Covered l -> Covered (parts l).
Proof. induction 1; [apply cov_nothing|now apply cov_follow]. Qed.
Lemma cov_times : forall n f, Covered f -> Covered (times n f).
Proof. intros n f H. apply cov_parts, Forall_forall. intros x Hx. apply repeat_spec in Hx. now subst. Qed.

(** The value is only wrapped. *)
Lemma ag_map : forall A B (d : dec A) (g : A -> B) f, Agrees d f -> Agrees (dbind d (fun x => DRet (g x))) f.
Proof.
  intros A B d g f H. split.
  - intros w rest Hw. destruct (ag_whole d f H w rest Hw) as [a E]. exists (g a). now rewrite run_bind, E.
  - intros v w rest Hw. rewrite run_bind, (ag_ends d f H v w rest Hw). destruct v; reflexivity.
  - intros e w Hw. now rewrite run_bind, (ag_short d f H e w Hw).
Qed.

Lemma ag_same : forall A (d d' : dec A) f, (forall bs, run d bs = run d' bs) -> Agrees d' f -> Agrees d f.
Proof.
  intros A d d' f E H. split.
  - intros w rest Hw. rewrite E. now apply (ag_whole d' f H).
  - intros v w rest Hw. rewrite E. now apply (ag_ends d' f H).
  - intros e w Hw. rewrite E. now apply (ag_short d' f H).
Qed.

Lemma ag_leading : forall A n (k : bytes -> dec A) F,
  (forall b, length b = n -> Agrees (k b) (F b)) -> Agrees (DRead n EIo k) (leading n F).
Proof.
  intros A n k F H. split.
  - intros w rest (u & v & -> & L & Hv). cbn [run]. rewrite <- app_assoc, (splitn_app n u (v ++ rest) L).
    apply (ag_whole _ _ (H u L)), Hv.
  - intros x w rest (u & v & -> & L & Hv). cbn [run]. rewrite <- app_assoc, (splitn_app n u (v ++ rest) L).
    apply (ag_ends _ _ (H u L)), Hv.
  - intros e w [(-> & L)|(u & v & -> & L & Hv)]; cbn [run].
    + apply splitn_none in L. now rewrite L.
    + rewrite (splitn_app n u v L). apply (ag_short _ _ (H u L)), Hv.
Qed.
Lemma cov_leading : forall n F, (forall b, length b = n -> Covered (F b)) -> Covered (leading n F).
Proof.
  intros n F H bs. destruct (le_lt_dec n (length bs)) as [L|L].
  - assert (Lu : length (firstn n bs) = n) by now apply firstn_length_le.
    rewrite <- (firstn_skipn n bs). set (u := firstn n bs) in *. destruct (H u Lu (skipn n bs)) as [(w & r & Hw & ->)|[(v & w & r & Hw & ->)|(e & Hw)]].
    + left. exists (u ++ w), r. split; [exists u, w; auto|apply app_assoc].
    + right. left. exists v, (u ++ w), r. split; [exists u, w; auto|apply app_assoc].
    + right. right. exists e. right. exists u, (skipn n bs). auto.
  - right. right. exists EIo. left. auto.
Qed.

Lemma u64_val : forall b, length b = 8%nat -> uval (uwrap 64 (from_le b)) = le_value b.
Proof. intros b L. rewrite le_value_spec. apply uwrap_small. rewrite <- le_value_spec. now apply le_value_8. Qed.

Lemma ag_u64 : forall A (k : u64 -> dec A) F,
  (forall b, length b = 8%nat -> forall v, uval v = le_value b -> Agrees (k v) (F b)) -> Agrees (dbind decode_u64 k) (leading 8 F).
Proof. intros A k F H. cbn [decode_u64 decode_uint dbind]. apply ag_leading. intros b L. apply (H b L). now apply u64_val. Qed.

Lemma ag_u8 : forall A (k : byte -> dec A) F,
  (forall b, Agrees (k b) (F [b])) -> Agrees (dbind decode_u8 k) (leading 1 F).
Proof. intros A k F H. cbn [decode_u8 dbind]. apply ag_leading. intros b L. destruct b as [|b [|]]; try discriminate. apply H. Qed.

Lemma cov_byte : forall F, (forall b, Covered (F [b])) -> Covered (leading 1 F).
Proof. intros F H. apply cov_leading. intros b L. destruct b as [|b [|]]; try discriminate. apply H. Qed.

(** ** Vectors *)

Lemma ag_loop : forall A (d : dec A) f, Agrees d f -> forall n acc,
  (forall w rest, whole (times n f) w ->
     exists l, length l = (n + length acc)%nat /\ run (dloop_nat n (fun acc => dbind d (fun x => DRet (x :: acc))) acc) (w ++ rest) = ROk l rest) /\
  (forall v w rest, ends (times n f) v w -> run (dloop_nat n (fun acc => dbind d (fun x => DRet (x :: acc))) acc) (w ++ rest) = says v) /\
  (forall e w, short (times n f) e w -> run (dloop_nat n (fun acc => dbind d (fun x => DRet (x :: acc))) acc) w = RErr e).
Proof.
  intros A d f H. induction n as [|n IH]; intros acc; cbn [dloop_nat].
  - split; [|split; [now intros|now intros]]. intros w rest ->. exists acc. split; reflexivity.
  - unfold times in *. cbn [repeat parts fold_right]. fold (parts (repeat f n)). split; [|split].
    + intros w rest (u & v & -> & Hu & Hv). destruct (ag_whole d f H u (v ++ rest) Hu) as [a E].
      rewrite !run_bind, <- app_assoc, E. cbn [run]. destruct (proj1 (IH (a :: acc)) v rest Hv) as (l & L & E').
      exists l. split; [cbn [length] in L; lia|exact E'].
    + intros x w rest [Hw|(u & v & -> & Hu & Hv)].
      * rewrite !run_bind, (ag_ends d f H x w rest Hw). destruct x; reflexivity.
      * destruct (ag_whole d f H u (v ++ rest) Hu) as [a E]. rewrite !run_bind, <- app_assoc, E. cbn [run].
        now apply (proj1 (proj2 (IH (a :: acc)))).
    + intros e w [Hw|(u & v & -> & Hu & Hv)].
      * now rewrite !run_bind, (ag_short d f H e w Hw).
      * destruct (ag_whole d f H u v Hu) as [a E]. rewrite !run_bind, E. cbn [run].
        now apply (proj2 (proj2 (IH (a :: acc)))).
Qed.

Lemma ag_vec : forall sz A (d : dec A) f, 1 <= sz -> Agrees d f -> Agrees (decode_vec sz d) (counted sz f).
Proof.
  intros sz A d f Hsz H. unfold decode_vec, counted. apply ag_u64. intros b L len Hlen. rewrite Hlen.
  destruct (isize_max <? le_value b * sz) eqn:Hc; [apply ag_panic|]. apply N.ltb_ge in Hc.
  destruct (ag_loop A d f H (N.to_nat (le_value b)) []) as (H1 & H2 & H3). split.
  - intros w rest Hw. destruct (H1 w rest Hw) as (l & Ll & E). rewrite run_alloc, run_bind, dloop_run, E.
    cbn [length] in Ll. rewrite Nat.add_0_r in Ll.
    destruct (vec_of_ok sz A (rev l)) as (v & Ev & _);
      [rewrite rev_length, Ll, N2Nat.id; nia|rewrite rev_length, Ll, N2Nat.id; nia|].
    rewrite Ev. exists v. reflexivity.
  - intros v w rest Hw. rewrite run_alloc, run_bind, dloop_run, (H2 v w rest Hw). destruct v; reflexivity.
  - intros e w Hw. rewrite run_alloc, run_bind, dloop_run, (H3 e w Hw). reflexivity.
Qed.

Lemma cov_counted : forall sz f, Covered f -> Covered (counted sz f).
Proof.
  intros sz f H. apply cov_leading. intros b _. destruct (isize_max <? le_value b * sz); [apply cov_end|now apply cov_times].
Qed.

(** Bytes one at a time are bytes. *)
Lemma raw_times : forall n,
  (forall w, whole (raw n) w -> whole (times n (raw 1)) w) /\
  (forall e w, short (raw n) e w -> short (times n (raw 1)) e w).
Proof.
  induction n as [|n [IH1 IH2]].
  - split; [intros w H; cbn in H; destruct w; [reflexivity|discriminate]|]. intros e w [_ H]. cbn in H. lia.
  - unfold times in *. cbn [repeat parts fold_right]. fold (parts (repeat (raw 1) n)). split.
    + intros w H. cbn in H. destruct w as [|b w]; [discriminate|]. exists [b], w. repeat split. apply IH1. cbn. cbn in H. lia.
    + intros e w [-> H]. destruct w as [|b w]; [left; split; [reflexivity|cbn; lia]|]. right. exists [b], w. repeat split.
      apply IH2. split; [reflexivity|]. cbn in H. cbn. lia.
Qed.

Lemma loop_bytes : forall u rest acc,
  run (dloop_nat (length u) (fun acc => dbind decode_u8 (fun x => DRet (x :: acc))) acc) (u ++ rest) = ROk (rev u ++ acc) rest.
Proof.
  induction u as [|b u IH]; intros rest acc; cbn [length dloop_nat app rev]; [reflexivity|].
  rewrite !run_bind. cbn [decode_u8 run splitn hd]. rewrite IH, <- app_assoc. reflexivity.
Qed.

(** A vector of bytes, with its value. *)
Lemma run_bytes : forall c u rest, length c = 8%nat -> le_value c <= isize_max -> length u = N.to_nat (le_value c) ->
  exists v, run (decode_vec 1 decode_u8) (c ++ u ++ rest) = ROk v rest /\ vlist v = u.
Proof.
  intros c u rest Lc Hc Lu. unfold decode_vec. cbn [decode_usize decode_uint dbind run].
  rewrite (splitn_app 8 c (u ++ rest) Lc), u64_val by exact Lc. rewrite N.mul_1_r.
  destruct (N.ltb_spec isize_max (le_value c)); [lia|]. rewrite run_alloc, run_bind, dloop_run, <- Lu, loop_bytes.
  rewrite app_nil_r, rev_involutive.
  destruct (vec_of_ok 1 u8 u) as (v & E & Ev); [unfold u8; lia|unfold u8; lia|]. rewrite E. exists v. split; [reflexivity|exact Ev].
Qed.

Lemma ag_u8_raw : Agrees decode_u8 (raw 1).
Proof. exact (ag_read byte EIo 1 (hd x00)). Qed.

Lemma short_bytes : forall e c u, length c = 8%nat -> le_value c <= isize_max -> (length u < N.to_nat (le_value c))%nat -> e = EIo ->
  run (decode_vec 1 decode_u8) (c ++ u) = RErr e.
Proof.
  intros e c u Lc Hc Lu ->. apply (ag_short _ _ (ag_vec 1 byte decode_u8 (raw 1) ltac:(lia) ag_u8_raw)).
  right. exists c, u. split; [reflexivity|]. split; [exact Lc|]. rewrite N.mul_1_r.
  destruct (N.ltb_spec isize_max (le_value c)); [lia|]. apply raw_times. now split.
Qed.

Lemma full_bytes : forall c rest, length c = 8%nat -> isize_max < le_value c ->
  run (decode_vec 1 decode_u8) (c ++ rest) = RPanic CapacityOverflow.
Proof.
  intros c rest Lc Hc. apply (ag_ends _ _ (ag_vec 1 byte decode_u8 (raw 1) ltac:(lia) ag_u8_raw) (Stopped CapacityOverflow)).
  exists c, []. split; [now rewrite app_nil_r|]. split; [exact Lc|]. rewrite N.mul_1_r.
  destruct (N.ltb_spec isize_max (le_value c)); [|lia]. repeat split.
Qed.

Lemma eight : forall w, (length w < 8)%nat -> run (decode_vec 1 decode_u8) w = RErr EIo.
Proof.
  intros w H. unfold decode_vec. cbn [decode_usize decode_uint dbind run]. apply splitn_none in H. now rewrite H.
Qed.

Lemma ag_bytes : Agrees (decode_vec 1 decode_u8) counted_bytes.
Proof.
  split.
  - intros w rest (c & u & -> & Lc & Hu). destruct (N.ltb_spec isize_max (le_value c)); [destruct Hu|].
    cbn in Hu. rewrite <- app_assoc. destruct (run_bytes c u rest Lc ltac:(lia) Hu) as (v & E & _). now exists v.
  - intros x w rest (c & u & -> & Lc & Hu). destruct (N.ltb_spec isize_max (le_value c)); [|destruct Hu].
    destruct Hu as [-> ->]. rewrite app_nil_r. now apply full_bytes.
  - intros e w [(-> & L)|(c & u & -> & Lc & Hu)]; [now apply eight|].
    destruct (N.ltb_spec isize_max (le_value c)); [destruct Hu|]. destruct Hu as [-> Hu]. now apply short_bytes.
Qed.
Lemma cov_bytes : Covered counted_bytes.
Proof. apply cov_leading. intros b _. destruct (isize_max <? le_value b); [apply cov_end|apply cov_raw]. Qed.

Lemma rstring_of_ok : forall v : vec 1 byte, Utf8 (vlist v) -> exists s, rstring_of v = Some s.
Proof.
  intros v H. apply utf8_spec in H. unfold rstring_of. destruct (bool_dec _ true) as [h|h]; [eauto|]. now destruct h.
Qed.
Lemma rstring_of_none : forall v : vec 1 byte, ~ Utf8 (vlist v) -> rstring_of v = None.
Proof.
  intros v H. unfold rstring_of. destruct (bool_dec _ true) as [h|h]; [|reflexivity]. destruct H. now apply utf8_spec.
Qed.

Lemma ag_string : Agrees decode_string counted_text.
Proof.
  unfold decode_string. split.
  - intros w rest (c & u & -> & Lc & Hu). destruct (N.ltb_spec isize_max (le_value c)); [destruct Hu|].
    destruct Hu as (s & r & -> & Ls & Hs & ->). rewrite app_nil_r, <- app_assoc, run_bind.
    destruct (run_bytes c s rest Lc ltac:(lia) Ls) as (v & E & <-). rewrite E.
    destruct (rstring_of_ok v Hs) as [t ->]. exists t. reflexivity.
  - intros x w rest (c & u & -> & Lc & Hu). rewrite run_bind. destruct (N.ltb_spec isize_max (le_value c)).
    + destruct Hu as [-> ->]. rewrite app_nil_r. now rewrite full_bytes.
    + destruct Hu as (s & r & -> & Ls & Hs & -> & ->). rewrite app_nil_r, <- app_assoc.
      destruct (run_bytes c s rest Lc ltac:(lia) Ls) as (v & E & <-). rewrite E, (rstring_of_none v Hs). reflexivity.
  - intros e w [(-> & L)|(c & u & -> & Lc & Hu)]; rewrite run_bind; [now rewrite eight|].
    destruct (N.ltb_spec isize_max (le_value c)); [destruct Hu|].
    destruct Hu as [(-> & Hu)|(s & r & -> & _ & [])]. now rewrite (short_bytes EIo).
Qed.
Lemma cov_string : Covered counted_text.
Proof.
  apply cov_leading. intros b _. destruct (isize_max <? le_value b); [apply cov_end|]. apply cov_leading. intros s _.
  apply cov_require. destruct (utf8_valid s) eqn:E; [left; now apply utf8_spec|]. right. intros H. apply utf8_spec in H. congruence.
Qed.

(** ** Small values *)

Lemma ag_bool : Agrees decode_bool flag.
Proof. unfold decode_bool, flag. apply ag_u8. intros b. destruct b; try apply ag_ret; apply ag_err. Qed.
Lemma cov_bool : Covered flag.
Proof. apply cov_byte. intros b. destruct b; try apply cov_nothing; apply cov_end. Qed.

Lemma ag_assoc : forall A B C (m : dec A) (k : A -> dec B) (h : B -> dec C) f,
  Agrees (dbind (dbind m k) h) f -> Agrees (dbind m (fun x => dbind (k x) h)) f.
Proof.
  intros A B C m k h f. apply ag_same. intros bs. rewrite !run_bind. destruct (run m bs); try reflexivity. now rewrite run_bind.
Qed.

Lemma ag_option : forall A (d : dec A) f, Agrees d f -> Agrees (decode_option d) (optional f).
Proof.
  intros A d f H. unfold decode_option, decode_bool, optional. apply (ag_same _ _
    (dbind decode_u8 (fun v => match v with x00 => DRet None | x01 => dbind d (fun v => DRet (Some v)) | _ => DErr EInvalidValue end))).
  - intros bs. rewrite !run_bind. destruct (run decode_u8 bs) as [b r| |]; [|reflexivity|reflexivity]. destruct b; reflexivity.
  - apply ag_u8. intros b. destruct b; try apply ag_ret; try (now apply ag_map); apply ag_err.
Qed.
Lemma cov_option : forall f, Covered f -> Covered (optional f).
Proof. intros f H. apply cov_byte. intros b. destruct b; try apply cov_nothing; try exact H; apply cov_end. Qed.

Lemma signed_64 : forall b, length b = 8%nat -> sval (swrap 64 w64_nz (Z.of_N (le_value b))) = signed_value b.
Proof.
  intros b L. pose proof (le_value_8 b L) as H. unfold swrap. cbn [sval]. unfold swrap_Z, signed_value.
  change (2 ^ Z.of_N 64)%Z with 18446744073709551616%Z. change (2 ^ (Z.of_N 64 - 1))%Z with 9223372036854775808%Z.
  change (2 ^ 63) with 9223372036854775808. change (2 ^ 64)%Z with 18446744073709551616%Z. change (2 ^ 64) with 18446744073709551616 in H.
  cbv zeta. rewrite Z.mod_small by lia.
  destruct (N.ltb_spec (le_value b) 9223372036854775808), (Z.ltb_spec (Z.of_N (le_value b)) 9223372036854775808); lia.
Qed.

Lemma from_ts : forall s, (exists t, -377705116800 <= sval s <= 253402300799 /\ from_unix_timestamp s = Some t)%Z \/
  (~ (-377705116800 <= sval s <= 253402300799) /\ from_unix_timestamp s = None)%Z.
Proof.
  intros s. unfold from_unix_timestamp, ts_min, ts_max. destruct (bool_dec _ true) as [h|h].
  - left. eexists. split; [|reflexivity]. lia.
  - right. split; [|reflexivity]. intros X. apply h. lia.
Qed.

Lemma ag_stamp : Agrees decode_odt stamp.
Proof.
  unfold decode_odt, decode_i64, decode_sint. cbn [dbind]. apply ag_leading. intros b L.
  pose proof (signed_64 b L) as E. rewrite le_value_spec in E. rewrite <- E.
  destruct (from_ts (swrap 64 w64_nz (Z.of_N (from_le b)))) as [(t & R & ->)|(R & ->)]; apply ag_require; intros; try contradiction; eauto.
Qed.
Lemma cov_stamp_or : forall v, Covered (stamp_or v).
Proof. intros v. apply cov_leading. intros b _. apply cov_require. lia. Qed.

Lemma ag_span : Agrees decode_duration span.
Proof.
  unfold decode_duration, span. apply ag_u64. intros b L v ->. change (2 ^ 63 - 1) with 9223372036854775807. change (2 ^ 63) with 9223372036854775808.
  destruct (N.ltb_spec 9223372036854775807 (le_value b)); apply ag_require; intros; try lia; eauto.
Qed.
Lemma cov_span : Covered span.
Proof. apply cov_leading. intros b _. apply cov_require. lia. Qed.

Lemma ag_old : Agrees decode_v1_currency old_value.
Proof.
  unfold decode_v1_currency, old_value, old_sum. apply ag_u64. intros b L v ->. destruct (16 <? le_value b); [apply ag_err|].
  apply ag_leading. intros u _. apply ag_ret.
Qed.
Lemma cov_old : Covered old_value.
Proof. apply cov_leading. intros b _. destruct (16 <? le_value b); [apply cov_end|]. apply cov_leading. intros. apply cov_nothing. Qed.

Lemma ag_old_small : Agrees (dbind decode_v1_currency (fun c => dret_opt (ECustom "invalid value") (currency_try_into_u64 c))) old_small_value.
Proof.
  unfold decode_v1_currency, old_small_value, old_sum. apply (ag_same _ _
    (dbind decode_usize (fun len => if 16 <? uval len then DErr EInvalidLength else
       DRead (N.to_nat (uval len)) EIo (fun bs => dret_opt (ECustom "invalid value")
         (currency_try_into_u64 (uwrap 128 (from_be (repeat x00 (16 - N.to_nat (uval len)) ++ bs)))))))).
  { intros bs. rewrite !run_bind. destruct (run decode_usize bs) as [len r| |]; try reflexivity.
    destruct (16 <? uval len); [reflexivity|]. cbn [run]. destruct (splitn _ r) as [[x y]|]; reflexivity. }
  apply ag_u64. intros b L v ->. destruct (N.ltb_spec 16 (le_value b)); [apply ag_err|].
  apply ag_leading. intros u Lu.
  assert (E : uval (uwrap 128 (from_be (repeat x00 (16 - N.to_nat (le_value b)) ++ u))) = be_value u).
  { rewrite GrammarProofs.from_be_zeros, be_value_spec. apply uwrap_small. eapply N.lt_le_trans; [apply from_be_lt|].
    change (2 ^ 128) with (256 ^ 16). apply N.pow_le_mono_r; lia. }
  unfold currency_try_into_u64. rewrite E. destruct (N.ltb_spec (be_value u) (2 ^ 64)); apply ag_require; intros; try lia; cbn [dret_opt]; eauto.
Qed.
Lemma cov_old_small : Covered old_small_value.
Proof.
  apply cov_leading. intros b _. destruct (16 <? le_value b); [apply cov_end|]. apply cov_leading. intros. apply cov_require. lia.
Qed.

(** ** Structures: one field after the other *)

Ltac fld H := apply ag_follow; [first [exact H|apply H; lia]|intros ?].
Ltac fin := apply ag_ret.

Lemma ag_num : forall w, Agrees (decode_uint w) (raw 8).
Proof. intros w. exact (ag_read _ EIo 8 (fun b => uwrap w (from_le b))). Qed.
Lemma ag_snum : forall w h, Agrees (decode_sint w h) (raw 8).
Proof. intros w h. exact (ag_read _ EIo 8 (fun b => swrap w h (Z.of_N (from_le b)))). Qed.
Lemma ag_word : Agrees decode_u64 (raw 8).
Proof. exact (ag_num 64). Qed.
Lemma ag_arr : forall n, Agrees (decode_arr n) (raw n).
Proof. intros n. exact (ag_read _ EIo n (arr_of n)). Qed.
Lemma ag_hash : Agrees decode_hash (raw 32).
Proof. exact (ag_arr 32). Qed.
Lemma ag_sig : Agrees decode_signature (raw 64).
Proof. exact (ag_arr 64). Qed.
Lemma ag_spec : Agrees decode_specifier (raw 16).
Proof. exact (ag_arr 16). Qed.
Lemma ag_money : Agrees decode_currency (raw 16).
Proof. exact (ag_read _ EIo 16 (fun b => uwrap 128 (from_le b))). Qed.
Lemma ag_work : Agrees decode_work work_frame.
Proof. exact (ag_read _ (ECustom "invalid work") 32 (fun b => uwrap 256 (from_be (aval (arr_of 32 b))))). Qed.
Lemma ag_v1_work : Agrees decode_v1_work (raw 32).
Proof. exact (ag_read _ EIo 32 (fun b => uwrap 256 (from_be (aval (arr_of 32 b))))). Qed.

Lemma ag_output : Agrees decode_siacoin_output fr_output.
Proof. fld ag_money. fld ag_hash. fin. Qed.
Lemma ag_fund_output : Agrees decode_siafund_output fr_fund_output.
Proof. fld ag_word. fld ag_hash. fin. Qed.
Lemma ag_old_output : Agrees decode_v1_siacoin_output fr_old_output.
Proof. fld ag_old. fld ag_hash. fin. Qed.
Lemma ag_old_fund_output : Agrees decode_v1_siafund_output fr_old_fund_output.
Proof. unfold decode_v1_siafund_output. apply ag_assoc. fld ag_old_small. fld ag_hash. fld ag_old. fin. Qed.
Lemma ag_index : Agrees decode_chain_index fr_index.
Proof. fld ag_word. fld ag_hash. fin. Qed.
Lemma ag_hashes : Agrees (decode_vec 32 decode_hash) (counted 32 (raw 32)).
Proof. apply ag_vec; [lia|exact ag_hash]. Qed.
Lemma ag_state_element : Agrees decode_state_element fr_state_element.
Proof. fld ag_word. fld ag_hashes. fin. Qed.
Lemma ag_unlock_key : Agrees decode_unlock_key fr_unlock_key.
Proof. fld ag_spec. fld ag_bytes. fin. Qed.
Lemma ag_unlock_conditions : Agrees decode_unlock_conditions fr_unlock_conditions.
Proof. fld ag_word. fld (ag_vec 40 _ _ _ ltac:(lia) ag_unlock_key). fld ag_word. fin. Qed.

Lemma ag_v1_input : Agrees decode_v1_siacoin_input fr_v1_input.
Proof. fld ag_hash. fld ag_unlock_conditions. fin. Qed.
Lemma ag_v1_fund_input : Agrees decode_v1_siafund_input fr_v1_fund_input.
Proof. fld ag_hash. fld ag_unlock_conditions. fld ag_hash. fin. Qed.
Lemma ag_old_outputs : Agrees (decode_vec 48 decode_v1_siacoin_output) (counted 48 fr_old_output).
Proof. apply ag_vec; [lia|exact ag_old_output]. Qed.
Lemma ag_v1_contract : Agrees decode_v1_file_contract fr_v1_contract.
Proof. fld ag_word. fld ag_hash. fld ag_word. fld ag_word. fld ag_old. fld ag_old_outputs. fld ag_old_outputs. fld ag_hash. fld ag_word. fin. Qed.
Lemma ag_v1_revision : Agrees decode_v1_file_contract_revision fr_v1_revision.
Proof.
  fld ag_hash. fld ag_unlock_conditions. fld ag_word. fld ag_word. fld ag_hash. fld ag_word. fld ag_word.
  fld ag_old_outputs. fld ag_old_outputs. fld ag_hash. fin.
Qed.
Lemma ag_v1_proof : Agrees decode_v1_storage_proof fr_v1_proof.
Proof. fld ag_hash. fld ag_sig. fld ag_hashes. fin. Qed.
Lemma ag_indices : Agrees (decode_vec 8 decode_usize) (counted 8 (raw 8)).
Proof. apply ag_vec; [lia|exact ag_word]. Qed.
Lemma ag_covered : Agrees decode_covered_fields fr_covered.
Proof. fld ag_bool. do 10 fld ag_indices. fin. Qed.
Lemma ag_v1_signature : Agrees decode_transaction_signature fr_v1_signature.
Proof. fld ag_hash. fld ag_word. fld ag_word. fld ag_covered. fld ag_bytes. fin. Qed.
Lemma ag_v1_transaction : Agrees decode_v1_transaction fr_v1_transaction.
Proof.
  fld (ag_vec 72 _ _ _ ltac:(lia) ag_v1_input). fld ag_old_outputs. fld (ag_vec 160 _ _ _ ltac:(lia) ag_v1_contract).
  fld (ag_vec 216 _ _ _ ltac:(lia) ag_v1_revision). fld (ag_vec 120 _ _ _ ltac:(lia) ag_v1_proof).
  fld (ag_vec 104 _ _ _ ltac:(lia) ag_v1_fund_input). fld (ag_vec 40 _ _ _ ltac:(lia) ag_old_fund_output).
  fld (ag_vec 16 _ _ _ ltac:(lia) ag_old). fld (ag_vec 24 _ _ _ ltac:(lia) ag_bytes).
  fld (ag_vec 320 _ _ _ ltac:(lia) ag_v1_signature). fin.
Qed.
Lemma ag_block : Agrees decode_block fr_block.
Proof. fld ag_hash. fld ag_word. fld ag_stamp. fld ag_old_outputs. fld (ag_vec 240 _ _ _ ltac:(lia) ag_v1_transaction). fin. Qed.

(** ** Policies *)

Lemma byte_count : forall b, le_value [b] = b2n b.
Proof. intros b. rewrite le_value_spec. unfold from_le. cbn. lia. Qed.

Lemma ag_list : forall A B (d : dec A) f (g : list A -> B) n, Agrees d f ->
  Agrees (dbind (dloop n (fun acc => dbind d (fun x => DRet (x :: acc))) []) (fun l => DRet (g l))) (times (N.to_nat n) f).
Proof.
  intros A B d f g n H. destruct (ag_loop A d f H (N.to_nat n) []) as (H1 & H2 & H3). split.
  - intros w rest Hw. destruct (H1 w rest Hw) as (l & _ & E). exists (g l). now rewrite run_bind, dloop_run, E.
  - intros v w rest Hw. rewrite run_bind, dloop_run, (H2 v w rest Hw). destruct v; reflexivity.
  - intros e w Hw. now rewrite run_bind, dloop_run, (H3 e w Hw).
Qed.

Lemma ag_alloc : forall A z (d : dec A) f, Agrees d f -> Agrees (DAlloc z d) f.
Proof. intros A z d f. apply ag_same. intros bs. apply run_alloc. Qed.

Lemma ag_policy_op : forall stack, Agrees (decode_policy_body stack) (fr_policy_op stack).
Proof.
  induction stack as [|stack IH]; cbn [decode_policy_body fr_policy_op]; [apply ag_panic|].
  apply ag_u8. intros b. destruct b; try apply ag_err.
  - apply ag_map, ag_word.
  - apply ag_u64. intros b L v Hv. rewrite Hv. rewrite <- (signed_64 b L).
    destruct (from_ts (swrap 64 w64_nz (Z.of_N (le_value b)))) as [(t & R & ->)|(R & ->)]; cbn [dret_opt dbind]; apply ag_require; intros; try contradiction; eauto.
  - apply ag_map, ag_hash.
  - apply ag_map, ag_hash.
  - apply ag_follow; [exact ag_u8_raw|]. intros of. apply ag_u8. intros n. rewrite byte_count. apply ag_alloc.
    exact (ag_list _ _ _ _ (fun l => PThreshold of (rev l)) (b2n n) IH).
  - apply ag_map, ag_hash.
  - apply ag_map, ag_unlock_conditions.
Qed.
Lemma ag_policy : forall stack, Agrees (decode_policy stack) (fr_policy stack).
Proof.
  intros stack. apply ag_u8. intros b. destruct b; try apply ag_err. apply ag_policy_op.
Qed.
Lemma ag_satisfied : forall stack, Agrees (decode_satisfied_policy stack) (fr_satisfied stack).
Proof. intros stack. fld (ag_policy stack). fld (ag_vec 64 _ _ _ ltac:(lia) ag_sig). fld ag_hashes. fin. Qed.

(** ** v2 *)

Lemma ag_attestation : Agrees decode_attestation fr_attestation.
Proof. fld ag_hash. fld ag_string. fld ag_bytes. fld ag_sig. fin. Qed.
Lemma ag_contract : Agrees decode_v2_file_contract fr_contract.
Proof.
  fld ag_word. fld ag_word. fld ag_hash. fld ag_word. fld ag_word. fld ag_output. fld ag_output. fld ag_money. fld ag_money.
  fld ag_hash. fld ag_hash. fld ag_word. fld ag_sig. fld ag_sig. fin.
Qed.
Lemma ag_siacoin_element : Agrees decode_siacoin_element fr_siacoin_element.
Proof. fld ag_state_element. fld ag_hash. fld ag_output. fld ag_word. fin. Qed.
Lemma ag_siafund_element : Agrees decode_siafund_element fr_siafund_element.
Proof. fld ag_state_element. fld ag_hash. fld ag_fund_output. fld ag_money. fin. Qed.
Lemma ag_contract_element : Agrees decode_file_contract_element fr_contract_element.
Proof. fld ag_state_element. fld ag_hash. fld ag_contract. fin. Qed.
Lemma ag_index_element : Agrees decode_chain_index_element fr_index_element.
Proof. fld ag_state_element. fld ag_hash. fld ag_index. fin. Qed.
Lemma ag_input : forall stack, Agrees (decode_v2_siacoin_input stack) (fr_input stack).
Proof. intros stack. fld ag_siacoin_element. fld (ag_satisfied stack). fin. Qed.
Lemma ag_fund_input : forall stack, Agrees (decode_v2_siafund_input stack) (fr_fund_input stack).
Proof. intros stack. fld ag_siafund_element. fld ag_hash. fld (ag_satisfied stack). fin. Qed.
Lemma ag_revision : Agrees decode_v2_file_contract_revision fr_revision.
Proof. fld ag_contract_element. fld ag_contract. fin. Qed.
Lemma ag_renewal : Agrees decode_file_contract_renewal fr_renewal.
Proof. fld ag_contract. fld ag_contract. fld ag_money. fld ag_money. fld ag_sig. fld ag_sig. fin. Qed.
Lemma ag_storage_proof : Agrees decode_v2_storage_proof fr_storage_proof.
Proof. fld ag_index_element. fld ag_sig. fld ag_hashes. fin. Qed.
Lemma ag_resolution : Agrees decode_file_contract_resolution fr_resolution.
Proof.
  unfold decode_file_contract_resolution, fr_resolution. fld ag_contract_element. apply ag_assoc. apply ag_follow; [|intros; fin].
  apply ag_u8. intros b. destruct b; try apply ag_err; try apply ag_ret; [apply ag_map, ag_renewal|apply ag_map, ag_storage_proof].
Qed.

Lemma ag_if_set : forall A m i mask v (dflt : A) d f, mask = 2 ^ i -> v = le_value m -> Agrees d f ->
  Agrees (decode_when v mask dflt d) (if_set m i f).
Proof.
  intros A m i mask v dflt d f -> -> H. unfold decode_when, if_set. rewrite land_pow2. destruct (N.testbit _ i); cbn [negb]; [exact H|apply ag_ret].
Qed.

Ltac sec H := apply ag_follow; [apply ag_if_set; [reflexivity|assumption|first [exact H|apply ag_vec; [lia|exact H]]]|intros ?].
Lemma ag_transaction : forall stack, Agrees (decode_v2_transaction stack) (fr_transaction stack).
Proof.
  intros stack. apply ag_u8. intros b. destruct b; try apply ag_err. apply ag_u64. intros m L v Hv. cbv zeta.
  sec (ag_input stack). sec ag_output. sec (ag_fund_input stack). sec ag_fund_output. sec ag_contract. sec ag_revision.
  sec ag_resolution. sec ag_attestation. sec ag_bytes. sec (ag_map _ _ _ (@Some hash256) _ ag_hash). sec ag_money. fin.
Qed.

(** ** Chain states *)

Lemma ag_trees : forall B m n k i (g : list hash256 -> dec B) h, uval n = le_value m ->
  (forall l, length l = k -> Agrees (g l) h) ->
  Agrees (dbind (decode_trees n (N.of_nat i) k) g) (fold_right follow h (map (fun i => if_set m (N.of_nat i) (raw 32)) (seq i k))).
Proof.
  intros B m n k. induction k as [|k IH]; intros i g h E H; cbn [decode_trees seq map fold_right]; [now apply (H [])|].
  apply (ag_same _ _ (dbind (if has_tree_at_height n (N.of_nat i) then decode_hash else DRet zero_hash) (fun root =>
    dbind (decode_trees n (N.of_nat (S i)) k) (fun rest => g (root :: rest))))).
  - intros bs. replace (N.of_nat (S i)) with (N.of_nat i + 1) by lia. rewrite !run_bind.
    destruct (run (if has_tree_at_height n (N.of_nat i) then decode_hash else DRet zero_hash) bs) as [r rest| |]; try reflexivity.
    rewrite !run_bind. destruct (run (decode_trees n (N.of_nat i + 1) k) rest); reflexivity.
  - apply ag_follow.
    + unfold if_set. rewrite has_tree_testbit, E. destruct (N.testbit _ _); [exact ag_hash|apply ag_ret].
    + intros root. apply IH; [exact E|]. intros l Hl. apply H. cbn [length]. now rewrite Hl.
Qed.
Lemma ag_accumulator : Agrees decode_element_accumulator fr_accumulator.
Proof.
  unfold decode_element_accumulator, fr_accumulator. apply ag_u64. intros m L v Hv. unfold parts.
  apply (ag_trees _ m v 64 0); [exact Hv|]. intros l Hl. destruct (farr_of_ok 64 hash256 l Hl) as [a ->]. apply ag_ret.
Qed.

Lemma ag_stamps : forall B k count (g : list odt -> dec B) h, (count <= k)%nat -> (forall l, length l = k -> Agrees (g l) h) ->
  Agrees (dbind (decode_timestamps count k) g) (fold_right follow h (repeat stamp count)).
Proof.
  intros B. induction k as [|k IH]; intros count g h Hc H; cbn [decode_timestamps].
  - destruct count; [|lia]. now apply (H []).
  - destruct count as [|count]; cbn [repeat fold_right].
    + apply (H (repeat unix_epoch (S k))). now rewrite repeat_length.
    + apply (ag_same _ _ (dbind decode_odt (fun ts => dbind (decode_timestamps count k) (fun rest => g (ts :: rest))))).
      * intros bs. rewrite !run_bind. cbn [decode_timestamps]. rewrite !run_bind.
        destruct (run decode_odt bs) as [t r| |]; try reflexivity.
        rewrite !run_bind. destruct (run (decode_timestamps count k) r); reflexivity.
      * apply ag_follow; [exact ag_stamp|]. intros ts. apply IH; [lia|]. intros l Hl. apply H. cbn [length]. now rewrite Hl.
Qed.

Lemma ag_state : forall p, Agrees (decode_state p) (fr_state p).
Proof.
  intros p. unfold decode_state, decode_chain_index, fr_state.
  apply (ag_same _ _ (dbind decode_u64 (fun h => dbind decode_hash (fun id => match timestamps_count p (MkChainIndex h id) with
    | Panic q => DPanic q
    | Val count =>
      dbind (decode_timestamps count 11) (fun ts =>
      match farr_of 11 ts with
      | None => DPanic Unreachable
      | Some prev_timestamps =>
        dbind decode_hash (fun depth => dbind decode_hash (fun child_target => dbind decode_currency (fun siafund_pool =>
        dbind decode_duration (fun oak_time => dbind decode_hash (fun oak_target => dbind decode_hash (fun fpa => dbind decode_hash (fun ffa =>
        dbind decode_work (fun total_work => dbind decode_work (fun difficulty => dbind decode_work (fun oak_work =>
        dbind decode_element_accumulator (fun elements => dbind decode_u64 (fun attestations =>
        DRet (MkState (MkChainIndex h id) prev_timestamps depth child_target siafund_pool oak_time oak_target
              fpa ffa total_work difficulty oak_work elements attestations)))))))))))))
      end) end)))).
  { intros bs. rewrite !run_bind. destruct (run decode_u64 bs) as [h r| |]; try reflexivity. rewrite !run_bind.
    destruct (run decode_hash r) as [id r'| |]; reflexivity. }
  apply ag_u64. intros m L h Hh. fld ag_hash.
  unfold timestamps_count, ci_child_height, u_add. cbn [ci_height]. rewrite Hh. pose proof (le_value_8 m L) as Hm.
  change (uval (uwrap 64 1)) with 1.
  assert (X : forall n, (n = N.to_nat (N.min 11 ((le_value m + 1) mod 2 ^ 64)))%nat -> forall a,
    Agrees (dbind (decode_timestamps n 11) (fun ts =>
      match farr_of 11 ts with
      | None => DPanic Unreachable
      | Some prev_timestamps =>
        dbind decode_hash (fun depth => dbind decode_hash (fun child_target => dbind decode_currency (fun siafund_pool =>
        dbind decode_duration (fun oak_time => dbind decode_hash (fun oak_target => dbind decode_hash (fun fpa => dbind decode_hash (fun ffa =>
        dbind decode_work (fun total_work => dbind decode_work (fun difficulty => dbind decode_work (fun oak_work =>
        dbind decode_element_accumulator (fun elements => dbind decode_u64 (fun attestations =>
        DRet (MkState (MkChainIndex h a) prev_timestamps depth child_target siafund_pool oak_time oak_target
              fpa ffa total_work difficulty oak_work elements attestations)))))))))))))
      end))
     (parts (repeat stamp (N.to_nat (N.min 11 ((le_value m + 1) mod 2 ^ 64))) ++
         [raw 32; raw 32; raw 16; span; raw 32; raw 32; raw 32; work_frame; work_frame; work_frame;
          fr_accumulator; raw 8]))).
  { intros n -> a'. unfold parts. rewrite fold_right_app. apply ag_stamps; [lia|]. intros l Hl.
    destruct (farr_of_ok 11 odt l Hl) as [t ->]. cbn [fold_right].
    fld ag_hash. fld ag_hash. fld ag_money. fld ag_span. fld ag_hash. fld ag_hash. fld ag_hash. fld ag_work. fld ag_work. fld ag_work.
    fld ag_accumulator. fld ag_word. fin. }
  destruct p.
  - destruct (N.ltb_spec (le_value m + 1) (2 ^ 64)) as [Hs|Hs].
    + destruct (N.eqb_spec (le_value m) (2 ^ 64 - 1)); [lia|]. cbn [obind]. apply X.
      rewrite uwrap_small by exact Hs. rewrite N.mod_small by exact Hs. destruct (N.ltb_spec (le_value m + 1) 11); lia.
    + destruct (N.eqb_spec (le_value m) (2 ^ 64 - 1)); [|lia]. cbn [obind]. apply ag_panic.
  - cbn [obind]. assert (E : uval (uwrap 64 (le_value m + 1)) = (le_value m + 1) mod 2 ^ 64) by reflexivity. rewrite E.
    destruct (le_value m =? 2 ^ 64 - 1); apply X; destruct (N.ltb_spec ((le_value m + 1) mod 2 ^ 64) 11); lia.
Qed.

(** ** Coverage of the types *)

Ltac cov := lazymatch goal with
  | |- Covered (parts _) => apply cov_parts; repeat (apply Forall_cons; [cov|]); apply Forall_nil
  | |- Covered (raw _) => apply cov_raw
  | |- Covered (raw_or _ _) => apply cov_raw
  | |- Covered nothing => apply cov_nothing
  | |- Covered (end_with _) => apply cov_end
  | |- Covered (counted _ _) => apply cov_counted; cov
  | |- Covered (optional _) => apply cov_option; cov
  | |- Covered counted_bytes => apply cov_bytes
  | |- Covered counted_text => apply cov_string
  | |- Covered flag => apply cov_bool
  | |- Covered stamp => apply cov_stamp_or
  | |- Covered (stamp_or _) => apply cov_stamp_or
  | |- Covered span => apply cov_span
  | |- Covered old_value => apply cov_old
  | |- Covered old_small_value => apply cov_old_small
  | |- Covered work_frame => apply cov_raw
  | |- Covered (follow _ _) => apply cov_follow; cov
  | |- _ => auto with frames
  end.
Create HintDb frames.

Lemma cov_output : Covered fr_output. Proof. unfold fr_output. cov. Qed.
Lemma cov_fund_output : Covered fr_fund_output. Proof. unfold fr_fund_output. cov. Qed.
Lemma cov_old_output : Covered fr_old_output. Proof. unfold fr_old_output. cov. Qed.
Lemma cov_old_fund_output : Covered fr_old_fund_output. Proof. unfold fr_old_fund_output. cov. Qed.
Lemma cov_index : Covered fr_index. Proof. unfold fr_index. cov. Qed.
Lemma cov_state_element : Covered fr_state_element. Proof. unfold fr_state_element. cov. Qed.
Lemma cov_unlock_key : Covered fr_unlock_key. Proof. unfold fr_unlock_key. cov. Qed.
#[local] Hint Resolve cov_output cov_fund_output cov_old_output cov_old_fund_output cov_index cov_state_element cov_unlock_key : frames.
Lemma cov_unlock_conditions : Covered fr_unlock_conditions. Proof. unfold fr_unlock_conditions. cov. Qed.
#[local] Hint Resolve cov_unlock_conditions : frames.
Lemma cov_v1_input : Covered fr_v1_input. Proof. unfold fr_v1_input. cov. Qed.
Lemma cov_v1_fund_input : Covered fr_v1_fund_input. Proof. unfold fr_v1_fund_input. cov. Qed.
Lemma cov_v1_contract : Covered fr_v1_contract. Proof. unfold fr_v1_contract. cov. Qed.
Lemma cov_v1_revision : Covered fr_v1_revision. Proof. unfold fr_v1_revision. cov. Qed.
Lemma cov_v1_proof : Covered fr_v1_proof. Proof. unfold fr_v1_proof. cov. Qed.
Lemma cov_covered : Covered fr_covered. Proof. unfold fr_covered. cbn [repeat]. cov. Qed.
#[local] Hint Resolve cov_v1_input cov_v1_fund_input cov_v1_contract cov_v1_revision cov_v1_proof cov_covered : frames.
Lemma cov_v1_signature : Covered fr_v1_signature. Proof. unfold fr_v1_signature. cov. Qed.
#[local] Hint Resolve cov_v1_signature : frames.
Lemma cov_v1_transaction : Covered fr_v1_transaction. Proof. unfold fr_v1_transaction. cov. Qed.
#[local] Hint Resolve cov_v1_transaction : frames.
Lemma cov_block : Covered fr_block. Proof. unfold fr_block. cov. Qed.

Lemma cov_policy_op : forall stack, Covered (fr_policy_op stack).
Proof.
  induction stack as [|stack IH]; cbn [fr_policy_op]; [cov|]. apply cov_byte. intros b. destruct b; try apply cov_end; try cov.
  apply cov_leading. intros n _. now apply cov_times.
Qed.
#[local] Hint Resolve cov_policy_op : frames.
Lemma cov_policy : forall stack, Covered (fr_policy stack).
Proof. intros stack. apply cov_byte. intros b. destruct b; try apply cov_end. cov. Qed.
#[local] Hint Resolve cov_policy : frames.
Lemma cov_satisfied : forall stack, Covered (fr_satisfied stack). Proof. intros stack. unfold fr_satisfied. cov. Qed.
Lemma cov_attestation : Covered fr_attestation. Proof. unfold fr_attestation. cov. Qed.
Lemma cov_contract : Covered fr_contract. Proof. unfold fr_contract. cov. Qed.
Lemma cov_siacoin_element : Covered fr_siacoin_element. Proof. unfold fr_siacoin_element. cov. Qed.
Lemma cov_siafund_element : Covered fr_siafund_element. Proof. unfold fr_siafund_element. cov. Qed.
#[local] Hint Resolve cov_satisfied cov_attestation cov_contract cov_siacoin_element cov_siafund_element : frames.
Lemma cov_contract_element : Covered fr_contract_element. Proof. unfold fr_contract_element. cov. Qed.
Lemma cov_index_element : Covered fr_index_element. Proof. unfold fr_index_element. cov. Qed.
#[local] Hint Resolve cov_contract_element cov_index_element : frames.
Lemma cov_input : forall stack, Covered (fr_input stack). Proof. intros stack. unfold fr_input. cov. Qed.
Lemma cov_fund_input : forall stack, Covered (fr_fund_input stack). Proof. intros stack. unfold fr_fund_input. cov. Qed.
Lemma cov_revision : Covered fr_revision. Proof. unfold fr_revision. cov. Qed.
Lemma cov_renewal : Covered fr_renewal. Proof. unfold fr_renewal. cov. Qed.
Lemma cov_storage_proof : Covered fr_storage_proof. Proof. unfold fr_storage_proof. cov. Qed.
#[local] Hint Resolve cov_input cov_fund_input cov_revision cov_renewal cov_storage_proof : frames.
Lemma cov_resolution : Covered fr_resolution.
Proof.
  unfold fr_resolution. apply cov_parts. apply Forall_cons; [cov|]. apply Forall_cons; [|apply Forall_nil]. apply cov_byte. intros b. destruct b; try apply cov_end; cov.
Qed.
#[local] Hint Resolve cov_resolution : frames.
Lemma cov_if_set : forall m i f, Covered f -> Covered (if_set m i f).
Proof. intros m i f H. unfold if_set. destruct (N.testbit _ i); [exact H|apply cov_nothing]. Qed.
Lemma cov_transaction : forall stack, Covered (fr_transaction stack).
Proof.
  intros stack. apply cov_byte. intros b. destruct b; try apply cov_end. apply cov_leading. intros m _. apply cov_parts.
  repeat (apply Forall_cons; [apply cov_if_set; cov|]). apply Forall_nil.
Qed.
Lemma cov_accumulator : Covered fr_accumulator.
Proof.
  apply cov_leading. intros m _. apply cov_parts, Forall_forall. intros f H. apply in_map_iff in H as (i & <- & _). apply cov_if_set. cov.
Qed.
#[local] Hint Resolve cov_accumulator : frames.
Lemma cov_state : forall p, Covered (fr_state p).
Proof.
  intros p. apply cov_leading. intros h _. apply cov_follow; [cov|].
  assert (X : Covered (parts (repeat stamp (N.to_nat (N.min 11 ((le_value h + 1) mod 2 ^ 64))) ++
         [raw 32; raw 32; raw 16; span; raw 32; raw 32; raw 32; work_frame; work_frame; work_frame; fr_accumulator; raw 8]))).
  { apply cov_parts, Forall_app. split.
    - apply Forall_forall. intros f H. apply repeat_spec in H as ->. cov.
    - repeat (apply Forall_cons; [cov|]). apply Forall_nil. }
  destruct p, (le_value h =? 2 ^ 64 - 1); try exact X. cov.
Qed.

(** ** Every row *)

Lemma framed_agrees : forall stack A d f, Framed stack A d f -> Agrees d f /\ Covered f.
Proof.
  intros stack A d f H. induction H; try (split; [|cov; fail]).
  1: exact ag_u8_raw. 1: exact ag_bool. 1-4: apply ag_num. 1-3: apply ag_snum. 1: exact ag_string. 1: exact ag_money. 1: exact ag_old.
  1: exact ag_spec. 1: exact ag_hash. 1: exact ag_sig. 1: exact (ag_arr 64). 1: exact ag_work. 1: exact ag_v1_work. 1: apply ag_arr.
  1: exact ag_bytes. 1: { destruct IHFramed. split; [now apply ag_vec|now apply cov_counted]. }
  1: { destruct IHFramed. split; [now apply ag_option|now apply cov_option]. }
  1: exact ag_stamp. 1: exact ag_span. 1: exact ag_index. 1: exact ag_output. 1: exact ag_fund_output. 1: exact ag_old_output.
  1: exact ag_old_fund_output. 1: exact ag_state_element. 1: exact ag_unlock_key. 1: exact ag_unlock_conditions.
  1: exact ag_v1_input. 1: exact ag_v1_fund_input. 1: exact ag_v1_contract. 1: exact ag_v1_revision. 1: exact ag_v1_proof.
  1: exact ag_covered. 1: exact ag_v1_signature. 1: exact ag_v1_transaction. 1: split; [exact ag_block|exact cov_block].
  1: apply ag_policy. 1: apply ag_satisfied. 1: exact ag_attestation. 1: exact ag_contract. 1: exact ag_siacoin_element.
  1: exact ag_siafund_element. 1: exact ag_contract_element. 1: exact ag_index_element. 1: apply ag_input. 1: apply ag_fund_input.
  1: exact ag_revision. 1: exact ag_renewal. 1: exact ag_storage_proof. 1: exact ag_resolution.
  1: split; [apply ag_transaction|apply cov_transaction]. 1: exact ag_accumulator. split; [apply ag_state|apply cov_state].
Qed.

Lemma framed_read : forall stack A d f, Framed stack A d f -> forall bs rest,
  (exists a, run d bs = ROk a rest) <-> exists w, whole f w /\ bs = w ++ rest.
Proof.
  intros stack A d f H bs rest. destruct (framed_agrees _ _ _ _ H) as [G C]. split.
  - intros [a E]. destruct (C bs) as [(w & r & Hw & ->)|[(v & w & r & Hw & ->)|(e & Hw)]].
    + destruct (ag_whole _ _ G w r Hw) as [b E']. rewrite E' in E. injection E as _ <-. eauto.
    + rewrite (ag_ends _ _ G v w r Hw) in E. destruct v; discriminate.
    + rewrite (ag_short _ _ G e bs Hw) in E. discriminate.
  - intros (w & Hw & ->). exact (ag_whole _ _ G w rest Hw).
Qed.
Lemma framed_stop : forall stack A d f, Framed stack A d f -> forall bs p,
  run d bs = RPanic p <-> exists w rest, ends f (Stopped p) w /\ bs = w ++ rest.
Proof.
  intros stack A d f H bs p. destruct (framed_agrees _ _ _ _ H) as [G C]. split.
  - intros E. destruct (C bs) as [(w & r & Hw & ->)|[(v & w & r & Hw & ->)|(e & Hw)]].
    + destruct (ag_whole _ _ G w r Hw) as [b E']. congruence.
    + rewrite (ag_ends _ _ G v w r Hw) in E. destruct v; try discriminate. injection E as ->. eauto.
    + rewrite (ag_short _ _ G e bs Hw) in E. discriminate.
  - intros (w & rest & Hw & ->). exact (ag_ends _ _ G _ w rest Hw).
Qed.
Lemma framed_refuse : forall stack A d f, Framed stack A d f -> forall bs e,
  run d bs = RErr e <-> (exists w rest, ends f (Refused e) w /\ bs = w ++ rest) \/ short f e bs.
Proof.
  intros stack A d f H bs e. destruct (framed_agrees _ _ _ _ H) as [G C]. split.
  - intros E. destruct (C bs) as [(w & r & Hw & ->)|[(v & w & r & Hw & ->)|(e' & Hw)]].
    + destruct (ag_whole _ _ G w r Hw) as [b E']. congruence.
    + rewrite (ag_ends _ _ G v w r Hw) in E. destruct v; try discriminate. injection E as ->. left. eauto.
    + right. rewrite (ag_short _ _ G e' bs Hw) in E. now injection E as ->.
  - intros [(w & rest & Hw & ->)|Hw]; [exact (ag_ends _ _ G _ w rest Hw)|exact (ag_short _ _ G e bs Hw)].
Qed.

Lemma framed_v2 : forall stack A P e d, V2Codec stack A P e d -> exists f, Framed stack A d f.
Proof.
  intros stack A P e d H. induction H; try (eexists; constructor; fail).
  - destruct IHV2Codec as [f F]. exists (counted sz f). now constructor.
  - destruct IHV2Codec as [f F]. exists (optional f). now constructor.
Qed.
Lemma framed_v1 : forall stack A P e d, V1Codec A P e d -> exists f, Framed stack A d f.
Proof.
  intros stack A P e d H. induction H; try (eexists; constructor; fail).
  - destruct IHV1Codec as [f F]. exists (counted sz f). now constructor.
  - destruct IHV1Codec as [f F]. exists (optional f). now constructor.
Qed.

(** ** A capacity overflow takes a count that no memory could hold *)

Definition Big (k : N) (bs : bytes) : Prop := exists pre c post, bs = pre ++ c ++ post /\ length c = 8%nat /\ k <= le_value c.
Lemma big_app_l : forall k u v, Big k u -> Big k (u ++ v).
Proof. intros k u v (p & c & q & -> & L & H). exists p, c, (q ++ v). split; [now rewrite !app_assoc|auto]. Qed.
Lemma big_app_r : forall k u v, Big k v -> Big k (u ++ v).
Proof. intros k u v (p & c & q & -> & L & H). exists (u ++ p), c, q. split; [now rewrite !app_assoc|auto]. Qed.

Definition Takes (k : N) (f : frame) : Prop := forall w, ends f (Stopped CapacityOverflow) w -> Big k w.
Lemma tk_follow : forall k f g, Takes k f -> Takes k g -> Takes k (follow f g).
Proof. intros k f g Hf Hg w [H|(u & v & -> & _ & H)]; [auto|]. apply big_app_r; auto. Qed.
Lemma tk_nothing : forall k, Takes k nothing. Proof. intros k w []. Qed.
Lemma tk_parts : forall k l, Forall (Takes k) l -> Takes k (parts l).
Proof. intros k l H. induction H; [apply tk_nothing|]. now apply tk_follow. Qed.
Lemma tk_times : forall k n f, Takes k f -> Takes k (times n f).
Proof. intros k n f H. apply tk_parts, Forall_forall. intros g Hg. apply repeat_spec in Hg as ->. exact H. Qed.
Lemma tk_leading : forall k n F, (forall b, length b = n -> Takes k (F b)) -> Takes k (leading n F).
Proof. intros k n F H w (u & v & -> & L & E). apply big_app_r. exact (H u L v E). Qed.
Lemma tk_byte : forall k F, (forall b, Takes k (F [b])) -> Takes k (leading 1 F).
Proof. intros k F H. apply tk_leading. intros [|b [|c r]] L; cbn in L; try lia. apply H. Qed.
Lemma tk_raw : forall k e n, Takes k (raw_or e n). Proof. intros k e n w []. Qed.
Lemma tk_end : forall k v, v <> Stopped CapacityOverflow -> Takes k (end_with v).
Proof. intros k v H w [E _]. congruence. Qed.
Lemma tk_require : forall k P v, v <> Stopped CapacityOverflow -> Takes k (require P v).
Proof. intros k P v H w (_ & E & _). congruence. Qed.

Lemma tk_count : forall k sz g, k * sz <= isize_max + 1 -> 1 <= sz -> (forall c, Takes k (g c)) ->
  Takes k (leading 8 (fun c => if isize_max <? le_value c * sz then end_with (Stopped CapacityOverflow) else g c)).
Proof.
  intros k sz g Hk Hs H w (u & v & -> & L & E). destruct (N.ltb_spec isize_max (le_value u * sz)) as [X|X].
  - destruct E as [_ ->]. exists [], u, []. split; [reflexivity|]. split; [exact L|]. nia.
  - apply big_app_r. exact (H u v E).
Qed.
Lemma tk_counted : forall sz f, 1 <= sz <= 2048 -> Takes (2 ^ 52) f -> Takes (2 ^ 52) (counted sz f).
Proof.
  intros sz f [H1 H2] H. apply tk_count; [|exact H1|intros; now apply tk_times].
  change (isize_max + 1) with (2 ^ 52 * 2048). nia.
Qed.
Lemma tk_count_one : forall k g, k <= isize_max + 1 -> (forall c, Takes k (g c)) ->
  Takes k (leading 8 (fun c => if isize_max <? le_value c then end_with (Stopped CapacityOverflow) else g c)).
Proof.
  intros k g Hk H w (u & v & -> & L & E). destruct (N.ltb_spec isize_max (le_value u)) as [X|X].
  - destruct E as [_ ->]. exists [], u, []. split; [reflexivity|]. split; [exact L|]. lia.
  - apply big_app_r. exact (H u v E).
Qed.
Lemma tk_bytes : Takes (2 ^ 52) counted_bytes.
Proof. apply tk_count_one; [apply N.leb_le; reflexivity|]. intros c. apply tk_raw. Qed.
Lemma tk_text : Takes (2 ^ 52) counted_text.
Proof. apply tk_count_one; [apply N.leb_le; reflexivity|]. intros c. apply tk_leading. intros. apply tk_require. discriminate. Qed.
Lemma tk_old : Takes (2 ^ 52) old_value.
Proof. apply tk_leading. intros b _. destruct (16 <? le_value b); [apply tk_end; discriminate|]. apply tk_leading. intros. apply tk_nothing. Qed.
Lemma tk_old_small : Takes (2 ^ 52) old_small_value.
Proof.
  apply tk_leading. intros b _. destruct (16 <? le_value b); [apply tk_end; discriminate|]. apply tk_leading. intros. apply tk_require. discriminate.
Qed.
Lemma tk_flag : Takes (2 ^ 52) flag.
Proof. apply tk_byte. intros b. destruct b; first [apply tk_nothing|apply tk_end; discriminate]. Qed.

Ltac tk := lazymatch goal with
  | |- Takes _ (parts _) => apply tk_parts; repeat (apply Forall_cons; [tk|]); apply Forall_nil
  | |- Takes _ (raw _) => apply tk_raw
  | |- Takes _ (raw_or _ _) => apply tk_raw
  | |- Takes _ nothing => apply tk_nothing
  | |- Takes _ (end_with _) => apply tk_end; discriminate
  | |- Takes _ (counted _ _) => apply tk_counted; [lia|tk]
  | |- Takes _ counted_bytes => apply tk_bytes
  | |- Takes _ counted_text => apply tk_text
  | |- Takes _ flag => apply tk_flag
  | |- Takes _ stamp => apply tk_leading; intros; apply tk_require; discriminate
  | |- Takes _ (stamp_or _) => apply tk_leading; intros; apply tk_require; discriminate
  | |- Takes _ old_value => apply tk_old
  | |- Takes _ old_small_value => apply tk_old_small
  | |- Takes _ (follow _ _) => apply tk_follow; tk
  | |- _ => auto with takes
  end.
Create HintDb takes.


Lemma tk_block : Takes (2 ^ 52) fr_block.
Proof. unfold fr_block, fr_v1_transaction, fr_v1_input, fr_v1_contract, fr_v1_revision, fr_v1_proof, fr_v1_fund_input, fr_v1_signature,
  fr_unlock_conditions, fr_unlock_key, fr_old_fund_output, fr_old_output, fr_covered. cbn [repeat]. tk. Qed.
Lemma tk_v1_transaction : Takes (2 ^ 52) fr_v1_transaction.
Proof. unfold fr_v1_transaction, fr_v1_input, fr_v1_contract, fr_v1_revision, fr_v1_proof, fr_v1_fund_input, fr_v1_signature,
  fr_unlock_conditions, fr_unlock_key, fr_old_fund_output, fr_old_output, fr_covered. cbn [repeat]. tk. Qed.
Lemma tk_unlock_conditions : Takes (2 ^ 52) fr_unlock_conditions.
Proof. unfold fr_unlock_conditions, fr_unlock_key. tk. Qed.
Lemma tk_policy_op : forall stack, Takes (2 ^ 52) (fr_policy_op stack).
Proof.
  induction stack as [|stack IH]; cbn [fr_policy_op]; [tk|]. apply tk_byte. intros b.
  destruct b; try (apply tk_end; discriminate); try tk.
  - apply tk_leading. intros n _. now apply tk_times.
  - apply tk_unlock_conditions.
Qed.
#[local] Hint Resolve tk_policy_op : takes.
Lemma tk_policy : forall stack, Takes (2 ^ 52) (fr_policy stack).
Proof. intros stack. apply tk_byte. intros b. destruct b; try (apply tk_end; discriminate). tk. Qed.
#[local] Hint Resolve tk_policy : takes.
Lemma tk_if_set : forall k m i f, Takes k f -> Takes k (if_set m i f).
Proof. intros k m i f H. unfold if_set. destruct (N.testbit _ i); [exact H|apply tk_nothing]. Qed.
Lemma tk_state_element : Takes (2 ^ 52) fr_state_element. Proof. unfold fr_state_element. tk. Qed.
Lemma tk_output : Takes (2 ^ 52) fr_output. Proof. unfold fr_output. tk. Qed.
Lemma tk_fund_output : Takes (2 ^ 52) fr_fund_output. Proof. unfold fr_fund_output. tk. Qed.
#[local] Hint Resolve tk_state_element tk_output tk_fund_output : takes.
Lemma tk_contract : Takes (2 ^ 52) fr_contract. Proof. unfold fr_contract. tk. Qed.
#[local] Hint Resolve tk_contract : takes.
Lemma tk_resolution : Takes (2 ^ 52) fr_resolution.
Proof.
  unfold fr_resolution, fr_contract_element. apply tk_parts. apply Forall_cons; [tk|]. apply Forall_cons; [|apply Forall_nil].
  apply tk_byte. intros b. destruct b; try (apply tk_end; discriminate).
  - unfold fr_renewal. tk.
  - unfold fr_storage_proof, fr_index_element, fr_index. tk.
  - tk.
Qed.
#[local] Hint Resolve tk_resolution : takes.
Lemma tk_transaction : forall stack, Takes (2 ^ 52) (fr_transaction stack).
Proof.
  intros stack. apply tk_byte. intros b. destruct b; try (apply tk_end; discriminate). apply tk_leading. intros m _. apply tk_parts.
  unfold fr_input, fr_fund_input, fr_satisfied, fr_siacoin_element, fr_siafund_element, fr_revision, fr_contract_element, fr_attestation.
  repeat (apply Forall_cons; [apply tk_if_set; tk|]). apply Forall_nil.
Qed.

Lemma framed_huge : forall stack A d f, Framed stack A d f -> Takes (2 ^ 52) f -> forall bs,
  run d bs = RPanic CapacityOverflow -> exists pre c post, bs = pre ++ c ++ post /\ length c = 8%nat /\ 2 ^ 52 <= le_value c.
Proof.
  intros stack A d f F T bs E. apply (framed_stop _ _ _ _ F) in E as (w & rest & H & ->). apply big_app_l, T, H.
Qed.

(** ** Blocks: when the timestamp stops the decoder *)

Definition Calm (f : frame) : Prop := forall w, ~ ends f (Stopped UnwrapNone) w.
Lemma calm_follow : forall f g, Calm f -> Calm g -> Calm (follow f g).
Proof. intros f g Hf Hg w [H|(u & v & -> & _ & H)]; [now apply Hf in H|now apply Hg in H]. Qed.
Lemma calm_parts : forall l, Forall Calm l -> Calm (parts l).
Proof. intros l H. induction H; [intros w []|]. now apply calm_follow. Qed.
Lemma calm_times : forall n f, Calm f -> Calm (times n f).
Proof. intros n f H. apply calm_parts, Forall_forall. intros g Hg. apply repeat_spec in Hg as ->. exact H. Qed.
Lemma calm_leading : forall n F, (forall b, length b = n -> Calm (F b)) -> Calm (leading n F).
Proof. intros n F H w (u & v & -> & L & E). exact (H u L v E). Qed.
Lemma calm_end : forall v, v <> Stopped UnwrapNone -> Calm (end_with v).
Proof. intros v H w [E _]. congruence. Qed.
Lemma calm_require : forall P v, v <> Stopped UnwrapNone -> Calm (require P v).
Proof. intros P v H w (_ & E & _). congruence. Qed.
Lemma calm_raw : forall e n, Calm (raw_or e n). Proof. intros e n w []. Qed.
Lemma calm_counted : forall sz f, Calm f -> Calm (counted sz f).
Proof. intros sz f H. apply calm_leading. intros c _. destruct (_ <? _); [apply calm_end; discriminate|now apply calm_times]. Qed.
Lemma calm_bytes : Calm counted_bytes.
Proof. apply calm_leading. intros c _. destruct (_ <? _); [apply calm_end; discriminate|apply calm_raw]. Qed.
Lemma calm_old : Calm old_value.
Proof. apply calm_leading. intros c _. destruct (_ <? _); [apply calm_end; discriminate|]. apply calm_leading. intros b _ w []. Qed.
Lemma calm_old_small : Calm old_small_value.
Proof. apply calm_leading. intros c _. destruct (_ <? _); [apply calm_end; discriminate|]. apply calm_leading. intros. apply calm_require. discriminate. Qed.
Lemma calm_flag : Calm flag.
Proof. apply calm_leading. intros [|b [|c r]] L; cbn in L; try lia. destruct b; first [apply calm_end; discriminate|intros w []]. Qed.
Ltac calm := lazymatch goal with
  | |- Calm (parts _) => apply calm_parts; repeat (apply Forall_cons; [calm|]); apply Forall_nil
  | |- Calm (raw _) => apply calm_raw
  | |- Calm (counted _ _) => apply calm_counted; calm
  | |- Calm counted_bytes => apply calm_bytes
  | |- Calm flag => apply calm_flag
  | |- Calm old_value => apply calm_old
  | |- Calm old_small_value => apply calm_old_small
  end.

Lemma block_time : forall bs, run decode_block bs = RPanic UnwrapNone <->
  exists pre c post, bs = pre ++ c ++ post /\ length pre = 40%nat /\ length c = 8%nat /\
    ~ (-377705116800 <= signed_value c <= 253402300799)%Z.
Proof.
  intros bs. rewrite (framed_stop 0 _ _ _ (R_block 0)). split.
  - intros (w & rest & H & ->). unfold fr_block, parts in H. cbn [fold_right] in H.
    destruct H as [[]|(p & v & -> & Lp & H)]. destruct H as [[]|(q & v' & -> & Lq & H)].
    destruct H as [H|(t & v & -> & _ & H)].
    + destruct H as (c & x & -> & Lc & N & _ & ->). rewrite app_nil_r. exists (p ++ q), c, rest. rewrite <- !app_assoc.
      split; [reflexivity|]. split; [|auto]. rewrite app_length. cbn in Lp, Lq. lia.
    + exfalso. revert H. change (~ ends (parts [counted 48 fr_old_output; counted 240 fr_v1_transaction]) (Stopped UnwrapNone) v).
      revert v. change (Calm (parts [counted 48 fr_old_output; counted 240 fr_v1_transaction])).
      unfold fr_v1_transaction, fr_v1_input, fr_v1_contract, fr_v1_revision, fr_v1_proof, fr_v1_fund_input, fr_v1_signature,
        fr_unlock_conditions, fr_unlock_key, fr_old_fund_output, fr_old_output, fr_covered. cbn [repeat]. calm.
  - intros (p & c & post & -> & Lp & Lc & N). exists (p ++ c), post. split; [|now rewrite <- app_assoc].
    unfold fr_block, parts. cbn [fold_right]. rewrite <- (firstn_skipn 32 p), <- app_assoc.
    right. exists (firstn 32 p), (skipn 32 p ++ c). split; [reflexivity|]. split; [unfold raw, raw_or; cbn [whole]; rewrite firstn_length; unfold bytes in *; lia|].
    right. exists (skipn 32 p), c. split; [reflexivity|]. split; [unfold raw, raw_or; cbn [whole]; rewrite skipn_length; unfold bytes in *; lia|].
    left. exists c, []. rewrite app_nil_r. repeat split; auto.
Qed.
