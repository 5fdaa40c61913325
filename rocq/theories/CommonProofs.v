(** Codec laws of the common types. *)

From Verif Require Import Base Io IoProofs Spec Codec Model_encoding EncodingProofs CodecTac
  Model_common.
Local Open Scope N_scope.
Local Open Scope dec_scope.

(** ** Currency *)

Lemma u128_le : forall c : currency, uval c < 256 ^ N.of_nat 16.
Proof. intros c. exact (uint_lt 128 c). Qed.

Lemma rt_currency : RoundTrip encode_currency decode_currency.
Proof.
  intros c rest. unfold encode_currency, decode_currency. rewrite wbytes_write_all.
  rewrite run_read_app by apply le_bytes_length. cbn [run].
  rewrite from_le_le_bytes, N.mod_small by apply u128_le. now rewrite uwrap_id.
Qed.

Lemma canon_currency : Canonical encode_currency decode_currency.
Proof.
  intros bs c rest H. unfold decode_currency in H. cbn [run] in H.
  destruct (splitn 16 bs) as [[x r]|] eqn:E; [|discriminate].
  apply splitn_some in E as [-> Hl]. injection H as <- <-.
  unfold encode_currency. rewrite wbytes_write_all. f_equal.
  rewrite uwrap_small.
  - rewrite <- Hl. symmetry; apply le_bytes_from_le.
  - pose proof (from_le_lt x) as Hx. rewrite Hl in Hx. exact Hx.
Qed.

Lemma pan_currency : forall P, PanicsOnly P decode_currency.
Proof. intros; apply panics_read; intros; apply panics_ret. Qed.

Lemma prop_currency : Propagates encode_currency.
Proof. intros c; apply propagates_write_all. Qed.

Lemma prop_v1_currency : Propagates encode_v1_currency.
Proof. intros c. unfold encode_v1_currency. cbv zeta. exact (prop_slice _ _ prop_u8 _). Qed.

Lemma first_nonzero_le : forall l, (first_nonzero l <= length l)%nat.
Proof. induction l as [|b l IH]; cbn; [lia|]. destruct (Byte.eqb b x00); lia. Qed.

Lemma first_nonzero_zeros : forall l,
  firstn (first_nonzero l) l = repeat x00 (first_nonzero l).
Proof.
  induction l as [|b l IH]; cbn; [reflexivity|].
  destruct (Byte.eqb b x00) eqn:E; [|reflexivity].
  apply Byte.byte_dec_bl in E; subst b. cbn. now rewrite IH.
Qed.

Lemma concat_encode_u8 : forall l, wbytes (concat (map encode_u8 l)) = l.
Proof. induction l as [|b l IH]; [reflexivity|]. cbn. now rewrite IH. Qed.

Lemma wbytes_slice_u8 : forall l, N.of_nat (length l) < 2 ^ 64 ->
  wbytes (encode_slice encode_u8 l) = le_bytes 8 (N.of_nat (length l)) ++ l.
Proof.
  intros l H. unfold encode_slice. rewrite wbytes_app_p by apply prop_uint.
  unfold encode_usize. rewrite wbytes_uint by discriminate. rewrite uwrap_small by assumption.
  now rewrite concat_encode_u8.
Qed.

(** The minimal big-endian representation of a value below 2^128. *)
Definition min_be (n : N) : bytes :=
  skipn (first_nonzero (be_bytes 16 n)) (be_bytes 16 n).

Lemma min_be_length : forall n, (length (min_be n) <= 16)%nat.
Proof. intros n; unfold min_be. rewrite skipn_length, be_bytes_length. lia. Qed.

Lemma min_be_length_eq : forall n,
  length (min_be n) = (16 - first_nonzero (be_bytes 16 n))%nat.
Proof. intros n; unfold min_be. now rewrite skipn_length, be_bytes_length. Qed.

Lemma min_be_pad : forall n, repeat x00 (16 - length (min_be n)) ++ min_be n = be_bytes 16 n.
Proof.
  intros n. pose proof (first_nonzero_le (be_bytes 16 n)) as H.
  rewrite be_bytes_length in H. rewrite min_be_length_eq.
  replace (16 - (16 - first_nonzero (be_bytes 16 n)))%nat with (first_nonzero (be_bytes 16 n)) by lia.
  rewrite <- first_nonzero_zeros. unfold min_be. apply firstn_skipn.
Qed.

Lemma wbytes_v1_currency : forall c,
  wbytes (encode_v1_currency c) = le_bytes 8 (N.of_nat (length (min_be (uval c)))) ++ min_be (uval c).
Proof.
  intros c. unfold encode_v1_currency. cbv zeta.
  change (skipn (first_nonzero (be_bytes 16 (uval c))) (be_bytes 16 (uval c))) with (min_be (uval c)).
  apply wbytes_slice_u8. pose proof (min_be_length (uval c)).
  change (2 ^ 64) with 18446744073709551616. unfold u8. lia.
Qed.

Lemma run_usize_le : forall A (f : usize -> dec A) n rest, n < 2 ^ 64 ->
  run (dbind decode_usize f) (le_bytes 8 n ++ rest) = run (f (uwrap 64 n)) rest.
Proof.
  intros A f n rest H. rewrite run_bind.
  replace (le_bytes 8 n) with (wbytes (encode_u64 (uwrap 64 n))).
  - change decode_usize with decode_u64. now rewrite rt_u64.
  - unfold encode_u64. rewrite wbytes_uint by discriminate. now rewrite uwrap_small.
Qed.

Lemma rt_v1_currency : RoundTrip encode_v1_currency decode_v1_currency.
Proof.
  intros c rest. rewrite wbytes_v1_currency, <- app_assoc. unfold decode_v1_currency.
  pose proof (min_be_length (uval c)) as Hl.
  assert (Hs : N.of_nat (length (min_be (uval c))) < 2 ^ 64)
    by (change (2 ^ 64) with 18446744073709551616; lia).
  rewrite run_usize_le by assumption. rewrite uwrap_small by assumption.
  destruct (N.ltb_spec 16 (N.of_nat (length (min_be (uval c))))) as [H|H]; [lia|].
  cbv zeta. rewrite Nnat.Nat2N.id. rewrite run_read_app by reflexivity. cbn [run].
  rewrite min_be_pad, from_be_be_bytes, N.mod_small by apply u128_le.
  now rewrite uwrap_id.
Qed.

Lemma pan_v1_currency : forall P, PanicsOnly P decode_v1_currency.
Proof.
  intros P. unfold decode_v1_currency. apply panics_bind; [apply pan_uint|]. intros len.
  destruct (16 <? uval len); [apply panics_err|].
  apply panics_read; intros; apply panics_ret.
Qed.

#[global] Hint Resolve rt_currency rt_v1_currency : rt.
#[global] Hint Resolve canon_currency : canon.
#[global] Hint Resolve pan_currency pan_v1_currency : pan.
#[global] Hint Resolve prop_currency prop_v1_currency : prop codec.

(** ** Fixed-size byte strings *)

Lemma rt_specifier : RoundTrip encode_specifier decode_specifier. Proof. apply rt_arr. Qed.
Lemma rt_hash : RoundTrip encode_hash decode_hash. Proof. apply rt_arr. Qed.
Lemma rt_signature : RoundTrip encode_signature decode_signature. Proof. apply rt_arr. Qed.
Lemma rt_leaf : RoundTrip encode_leaf decode_leaf. Proof. apply rt_arr. Qed.
Lemma canon_specifier : Canonical encode_specifier decode_specifier. Proof. apply canon_arr. Qed.
Lemma canon_hash : Canonical encode_hash decode_hash. Proof. apply canon_arr. Qed.
Lemma canon_signature : Canonical encode_signature decode_signature. Proof. apply canon_arr. Qed.
Lemma canon_leaf : Canonical encode_leaf decode_leaf. Proof. apply canon_arr. Qed.
Lemma pan_specifier : forall P, PanicsOnly P decode_specifier. Proof. apply pan_arr. Qed.
Lemma pan_hash : forall P, PanicsOnly P decode_hash. Proof. apply pan_arr. Qed.
Lemma pan_signature : forall P, PanicsOnly P decode_signature. Proof. apply pan_arr. Qed.
Lemma pan_leaf : forall P, PanicsOnly P decode_leaf. Proof. apply pan_arr. Qed.
Lemma prop_specifier : Propagates encode_specifier. Proof. apply prop_arr. Qed.
Lemma prop_hash : Propagates encode_hash. Proof. apply prop_arr. Qed.
Lemma prop_signature : Propagates encode_signature. Proof. apply prop_arr. Qed.
Lemma prop_leaf : Propagates encode_leaf. Proof. apply prop_arr. Qed.

#[global] Hint Resolve rt_specifier rt_hash rt_signature rt_leaf : rt.
#[global] Hint Resolve canon_specifier canon_hash canon_signature canon_leaf : canon.
#[global] Hint Resolve pan_specifier pan_hash pan_signature pan_leaf : pan.
#[global] Hint Resolve prop_specifier prop_hash prop_signature prop_leaf : prop codec.

(** ** Work *)

Lemma u256_lt : forall w : work, uval w < 256 ^ N.of_nat 32.
Proof. intros w. exact (uint_lt 256 w). Qed.

Lemma work_bytes : forall w : work,
  uwrap 256 (from_be (aval (arr_of 32 (be_bytes 32 (uval w))))) = w.
Proof.
  intros w. rewrite arr_of_aval by apply be_bytes_length.
  rewrite from_be_be_bytes, N.mod_small by apply u256_lt. apply uwrap_id.
Qed.

Lemma rt_work : RoundTrip encode_work decode_work.
Proof.
  intros w rest. unfold encode_work, decode_work. rewrite run_bind.
  erewrite run_map_err_ok by apply rt_arr. cbn [run]. now rewrite work_bytes.
Qed.

Lemma rt_v1_work : RoundTrip encode_work decode_v1_work.
Proof.
  intros w rest. unfold encode_work, decode_v1_work. rewrite run_bind, rt_arr.
  cbn [run]. now rewrite work_bytes.
Qed.

Lemma from_be_lt : forall l, from_be l < 256 ^ N.of_nat (length l).
Proof. intros l; unfold from_be. rewrite <- (rev_length l). apply from_le_lt. Qed.

Lemma work_arr : forall a : arr 32,
  arr_of 32 (be_bytes 32 (uval (uwrap 256 (from_be (aval a))))) = a.
Proof.
  intros a. rewrite uwrap_small.
  - rewrite <- (arr_of_id 32 a) at 2. f_equal.
    rewrite <- (arr_len 32 a) at 1. apply be_bytes_from_be.
  - pose proof (from_be_lt (aval a)) as H. rewrite arr_len in H. exact H.
Qed.

Lemma canon_work : Canonical encode_work decode_work.
Proof.
  intros bs w rest H. unfold decode_work in H. apply run_bind_ok in H as (a & r & H1 & H2).
  apply run_map_err_inv in H1. apply canon_arr in H1; subst bs.
  apply run_ret_ok in H2 as [<- <-]. unfold encode_work. now rewrite work_arr.
Qed.

Lemma canon_v1_work : Canonical encode_work decode_v1_work.
Proof.
  intros bs w rest H. unfold decode_v1_work in H. apply run_bind_ok in H as (a & r & H1 & H2).
  apply canon_arr in H1; subst bs.
  apply run_ret_ok in H2 as [<- <-]. unfold encode_work. now rewrite work_arr.
Qed.

Lemma pan_work : forall P, PanicsOnly P decode_work.
Proof.
  intros P; apply panics_bind; [apply panics_map_err, pan_arr | intros; apply panics_ret].
Qed.

Lemma pan_v1_work : forall P, PanicsOnly P decode_v1_work.
Proof. intros P; apply panics_bind; [apply pan_arr | intros; apply panics_ret]. Qed.

Lemma prop_work : Propagates encode_work.
Proof. intros w; apply prop_arr. Qed.

#[global] Hint Resolve rt_work : rt.
#[global] Hint Resolve canon_work : canon.
#[global] Hint Resolve pan_work : pan.
#[global] Hint Resolve prop_work : prop codec.

(** ** Structs *)

Lemma prop_chain_index : Propagates encode_chain_index.
Proof. prop_struct encode_chain_index. Qed.
Lemma rt_chain_index : RoundTrip encode_chain_index decode_chain_index.
Proof. rt_struct encode_chain_index decode_chain_index. Qed.
Lemma canon_chain_index : Canonical encode_chain_index decode_chain_index.
Proof. canon_struct encode_chain_index decode_chain_index. Qed.
Lemma pan_chain_index : forall P, PanicsOnly P decode_chain_index.
Proof. pan_struct decode_chain_index. Qed.

Lemma prop_siacoin_output : Propagates encode_siacoin_output.
Proof. prop_struct encode_siacoin_output. Qed.
Lemma rt_siacoin_output : RoundTrip encode_siacoin_output decode_siacoin_output.
Proof. rt_struct encode_siacoin_output decode_siacoin_output. Qed.
Lemma canon_siacoin_output : Canonical encode_siacoin_output decode_siacoin_output.
Proof. canon_struct encode_siacoin_output decode_siacoin_output. Qed.
Lemma pan_siacoin_output : forall P, PanicsOnly P decode_siacoin_output.
Proof. pan_struct decode_siacoin_output. Qed.

Lemma prop_v1_siacoin_output : Propagates encode_v1_siacoin_output.
Proof. prop_struct encode_v1_siacoin_output. Qed.
Lemma rt_v1_siacoin_output : RoundTrip encode_v1_siacoin_output decode_v1_siacoin_output.
Proof. rt_struct encode_v1_siacoin_output decode_v1_siacoin_output. Qed.
Lemma pan_v1_siacoin_output : forall P, PanicsOnly P decode_v1_siacoin_output.
Proof. pan_struct decode_v1_siacoin_output. Qed.

Lemma prop_siafund_output : Propagates encode_siafund_output.
Proof. prop_struct encode_siafund_output. Qed.
Lemma rt_siafund_output : RoundTrip encode_siafund_output decode_siafund_output.
Proof. rt_struct encode_siafund_output decode_siafund_output. Qed.
Lemma canon_siafund_output : Canonical encode_siafund_output decode_siafund_output.
Proof. canon_struct encode_siafund_output decode_siafund_output. Qed.
Lemma pan_siafund_output : forall P, PanicsOnly P decode_siafund_output.
Proof. pan_struct decode_siafund_output. Qed.

Lemma u64_as_u128 : forall v : u64, uval (uwrap 128 (uval v)) = uval v.
Proof.
  intros v. apply uwrap_small. eapply N.lt_trans; [apply uint_lt|]. reflexivity.
Qed.

Lemma try_into_u64 : forall v : u64, currency_try_into_u64 (uwrap 128 (uval v)) = Some v.
Proof.
  intros v. unfold currency_try_into_u64. rewrite u64_as_u128.
  destruct (N.ltb_spec (uval v) (2 ^ 64)) as [H|H].
  - now rewrite uwrap_id.
  - pose proof (uint_lt 64 v); lia.
Qed.

Lemma prop_v1_siafund_output : Propagates encode_v1_siafund_output.
Proof. prop_struct encode_v1_siafund_output. Qed.
Lemma rt_v1_siafund_output : RoundTrip encode_v1_siafund_output decode_v1_siafund_output.
Proof.
  intros [v a] rest. unfold encode_v1_siafund_output, decode_v1_siafund_output.
  split_wbytes. rt_step. cbv beta. rewrite try_into_u64. cbn [dret_opt dbind].
  rt_step. cbv beta. rt_step. reflexivity.
Qed.
Lemma pan_v1_siafund_output : forall P, PanicsOnly P decode_v1_siafund_output.
Proof.
  intros P. unfold decode_v1_siafund_output. apply panics_bind; [apply pan_v1_currency|].
  intros c. apply panics_bind; [apply panics_dret_opt|]. intros v.
  apply panics_bind; [apply pan_hash|]. intros a.
  apply panics_bind; [apply pan_v1_currency|]. intros; apply panics_ret.
Qed.

#[global] Hint Resolve prop_chain_index prop_siacoin_output prop_v1_siacoin_output
  prop_siafund_output prop_v1_siafund_output : prop codec.
#[global] Hint Resolve rt_chain_index rt_siacoin_output rt_v1_siacoin_output
  rt_siafund_output rt_v1_siafund_output : rt.
#[global] Hint Resolve canon_chain_index canon_siacoin_output canon_siafund_output : canon.
#[global] Hint Resolve pan_chain_index pan_siacoin_output pan_v1_siacoin_output
  pan_siafund_output pan_v1_siafund_output : pan.

Lemma prop_state_element : Propagates encode_state_element.
Proof. prop_struct encode_state_element. Qed.
Lemma rt_state_element : RoundTrip encode_state_element decode_state_element.
Proof. rt_struct encode_state_element decode_state_element. Qed.
Lemma canon_state_element : Canonical encode_state_element decode_state_element.
Proof. canon_struct encode_state_element decode_state_element. Qed.
Lemma pan_state_element : forall P : panic -> Prop,
  P CapacityOverflow -> PanicsOnly P decode_state_element.
Proof. pan_struct decode_state_element. Qed.

#[global] Hint Resolve prop_state_element : prop codec.
#[global] Hint Resolve rt_state_element : rt.
#[global] Hint Resolve canon_state_element : canon.
#[global] Hint Resolve pan_state_element : pan.
