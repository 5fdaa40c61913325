(** Recovery phrases: the model of seed.rs reads and writes exactly the BIP39 phrases. *)

From Coq Require Import Lia.
From Verif Require Import Base Blake2b Sha2 Bip39Words SpecUtf8 SpecMerkle SpecSeed Model_common
  Model_ed25519 Model_signing Model_seed SpecSign SigningProofs IdsProofs.
Local Open Scope N_scope.

#[local] Opaque sha256 word_list blake2b_256 keypair_bytes.

(** ** Bits *)

Lemma of_bits_acc : forall l a,
  fold_left (fun (a : N) (b : bool) => 2 * a + (if b then 1 else 0)) l a =
  a * 2 ^ N.of_nat (length l) + of_bits l.
Proof.
  unfold of_bits. induction l as [|b l IH]; intros a; cbn [fold_left length].
  - change (2 ^ N.of_nat 0) with 1. lia.
  - rewrite IH, (IH (2 * 0 + _)). rewrite Nat2N.inj_succ, N.pow_succ_r'. lia.
Qed.

Lemma of_bits_app : forall a b, of_bits (a ++ b) = of_bits a * 2 ^ N.of_nat (length b) + of_bits b.
Proof. intros a b. unfold of_bits at 1. rewrite fold_left_app. apply of_bits_acc. Qed.

Lemma of_bits_cons : forall b l,
  of_bits (b :: l) = (if b then 1 else 0) * 2 ^ N.of_nat (length l) + of_bits l.
Proof.
  intros b l. change (b :: l) with ([b] ++ l). rewrite of_bits_app. f_equal.
Qed.

Lemma of_bits_lt : forall l, of_bits l < 2 ^ N.of_nat (length l).
Proof.
  induction l as [|b l IH]; [reflexivity|].
  rewrite of_bits_cons. cbn [length]. rewrite Nat2N.inj_succ, N.pow_succ_r'. destruct b; lia.
Qed.

Lemma bits_length : forall k n, length (bits k n) = k.
Proof. induction k; intros n; cbn [bits length]; [reflexivity|]. now rewrite IHk. Qed.

Lemma of_bits_bits : forall k n, of_bits (bits k n) = n mod 2 ^ N.of_nat k.
Proof.
  induction k as [|k IH]; intros n.
  - cbn [bits]. change (2 ^ N.of_nat 0) with 1. rewrite N.mod_1_r. reflexivity.
  - cbn [bits]. rewrite of_bits_cons, IH, bits_length. rewrite N.testbit_eqb.
    rewrite Nat2N.inj_succ, N.pow_succ_r'. set (q := N.of_nat k).
    rewrite (N.mul_comm 2), N.mod_mul_r by (try apply N.pow_nonzero; discriminate).
    assert (B : n / 2 ^ q mod 2 < 2) by (apply N.mod_upper_bound; discriminate).
    generalize dependent (n / 2 ^ q mod 2). intros m B.
    destruct (N.eqb_spec m 1) as [->|]; [lia|]. assert (m = 0) as -> by lia. lia.
Qed.

Lemma of_bits_inj : forall a b, length a = length b -> of_bits a = of_bits b -> a = b.
Proof.
  induction a as [|x a IH]; intros [|y b] L E; try discriminate L; [reflexivity|].
  cbn [length] in L. injection L as L. rewrite !of_bits_cons, L in E.
  pose proof (of_bits_lt a) as Ba. pose proof (of_bits_lt b) as Bb. rewrite L in Ba.
  destruct x, y; try lia; f_equal; apply IH; try assumption; lia.
Qed.

Lemma bits_of_bits : forall l, bits (length l) (of_bits l) = l.
Proof.
  intros l. apply of_bits_inj; [apply bits_length|].
  rewrite of_bits_bits. apply N.mod_small, of_bits_lt.
Qed.

Lemma bits_of_bits' : forall k l, length l = k -> bits k (of_bits l) = l.
Proof. intros k l <-. apply bits_of_bits. Qed.

Lemma byte_bits_cons : forall b l, byte_bits (b :: l) = bits 8 (b2n b) ++ byte_bits l.
Proof. reflexivity. Qed.

Lemma byte_bits_length : forall l, length (byte_bits l) = (8 * length l)%nat.
Proof.
  induction l as [|b l IH]; [reflexivity|].
  rewrite byte_bits_cons, app_length, bits_length, IH. cbn [length]. lia.
Qed.

Lemma from_be_cons : forall b l, from_be (b :: l) = b2n b * 256 ^ N.of_nat (length l) + from_be l.
Proof.
  intros b l. unfold from_be. cbn [rev]. rewrite from_le_app, rev_length. cbn [from_le]. lia.
Qed.

Lemma of_byte_bits : forall l, of_bits (byte_bits l) = from_be l.
Proof.
  induction l as [|b l IH]; [reflexivity|].
  rewrite byte_bits_cons, of_bits_app, IH, from_be_cons, byte_bits_length, of_bits_bits.
  rewrite (N.mod_small (b2n b)) by apply b2n_bound.
  f_equal. f_equal. change 256 with (2 ^ 8). rewrite <- N.pow_mul_r. f_equal. lia.
Qed.

Lemma of_bits_firstn : forall k l, (k <= length l)%nat ->
  of_bits (firstn k l) = of_bits l / 2 ^ N.of_nat (length l - k).
Proof.
  intros k l H. rewrite <- (firstn_skipn k l) at 2. rewrite of_bits_app, skipn_length.
  rewrite N.div_add_l by (apply N.pow_nonzero; discriminate).
  rewrite N.div_small, N.add_0_r; [reflexivity|].
  pose proof (of_bits_lt (skipn k l)) as B. now rewrite skipn_length in B.
Qed.

Lemma of_bits_skipn : forall k l, (k <= length l)%nat ->
  of_bits (skipn k l) = of_bits l mod 2 ^ N.of_nat (length l - k).
Proof.
  intros k l H. rewrite <- (firstn_skipn k l) at 2. rewrite of_bits_app, skipn_length.
  rewrite N.add_comm, N.mod_add by (apply N.pow_nonzero; discriminate).
  symmetry. apply N.mod_small. pose proof (of_bits_lt (skipn k l)) as B.
  now rewrite skipn_length in B.
Qed.

(** ** Groups *)

Lemma groups_length : forall k n l, length (groups k n l) = n.
Proof. induction n; intros l; cbn [groups length]; [reflexivity|]. now rewrite IHn. Qed.

Lemma groups_concat : forall k n l, length l = (n * k)%nat -> concat (groups k n l) = l.
Proof.
  induction n as [|n IH]; intros l H.
  - destruct l; [reflexivity|discriminate H].
  - cbn [groups concat]. rewrite IH; [apply firstn_skipn|]. rewrite skipn_length, H.
    cbn [Nat.mul]. lia.
Qed.

Lemma groups_each : forall k n l, (n * k <= length l)%nat ->
  Forall (fun g => length g = k) (groups k n l).
Proof.
  induction n as [|n IH]; intros l H; cbn [groups]; [constructor|]. cbn [Nat.mul] in H.
  constructor; [rewrite firstn_length; lia|]. apply IH. rewrite skipn_length. lia.
Qed.

Lemma groups_of_concat : forall k gs r, Forall (fun g : list bool => length g = k) gs ->
  groups k (length gs) (concat gs ++ r) = gs.
Proof.
  intros k gs r H. induction H as [|g gs Hg _ IH]; [reflexivity|].
  cbn [length groups concat]. rewrite <- app_assoc.
  rewrite firstn_app, Hg, Nat.sub_diag, firstn_O, app_nil_r.
  rewrite firstn_all2 by lia. rewrite skipn_app, Hg, Nat.sub_diag, skipn_O.
  rewrite skipn_all2 by lia. cbn [app]. now rewrite IH.
Qed.

Lemma skipn_plus : forall A i j (l : list A), skipn i (skipn j l) = skipn (j + i) l.
Proof.
  intros A i j. induction j as [|j IH]; intros l; [reflexivity|].
  destruct l as [|x l]; cbn [skipn Nat.add]; [apply skipn_nil|apply IH].
Qed.

Lemma groups_nth : forall k n l i, (i < n)%nat -> (n * k <= length l)%nat ->
  nth i (groups k n l) [] = firstn k (skipn (i * k) l).
Proof.
  induction n as [|n IH]; intros l i Hi H; [lia|]. cbn [groups]. destruct i as [|i]; [reflexivity|].
  cbn [nth]. cbn [Nat.mul] in H. rewrite IH by (try rewrite skipn_length; lia).
  rewrite skipn_plus. reflexivity.
Qed.

Lemma firstn_skipn_value : forall k l i, (i * k + k <= length l)%nat ->
  of_bits (firstn k (skipn (i * k) l)) =
  of_bits l / 2 ^ N.of_nat (length l - (i * k + k)) mod 2 ^ N.of_nat k.
Proof.
  intros k l i H. rewrite of_bits_firstn by (rewrite skipn_length; lia).
  rewrite of_bits_skipn by lia. rewrite skipn_length.
  replace (length l - i * k)%nat with (length l - (i * k + k) + k)%nat by lia.
  rewrite Nat2N.inj_add, N.pow_add_r.
  replace (length l - (i * k + k) + k - k)%nat with (length l - (i * k + k))%nat by lia.
  set (q := 2 ^ N.of_nat (length l - (i * k + k))).
  assert (Q : q <> 0) by (apply N.pow_nonzero; discriminate).
  assert (K : 2 ^ N.of_nat k <> 0) by (apply N.pow_nonzero; discriminate).
  rewrite N.mod_mul_r by assumption.
  rewrite N.add_comm, N.mul_comm, N.div_add_l by assumption.
  rewrite (N.div_small (of_bits l mod q)) by (apply N.mod_upper_bound; assumption). lia.
Qed.

(** ** The word list *)

Definition letter (b : byte) : bool := (97 <=? b2n b) && (b2n b <=? 122).

Fixpoint bytes_ltb (a b : bytes) : bool :=
  match a, b with
  | [], _ :: _ => true
  | x :: a', y :: b' => (b2n x <? b2n y) || ((b2n x =? b2n y) && bytes_ltb a' b')
  | _, _ => false
  end.

Fixpoint increasing (l : list bytes) : bool :=
  match l with
  | a :: (b :: _) as r => bytes_ltb a b && increasing r
  | _ => true
  end.

Lemma word_list_length : length word_list = 2048%nat.
Proof. vm_compute. reflexivity. Qed.

Lemma word_list_sorted : increasing word_list = true.
Proof. vm_compute. reflexivity. Qed.

Lemma word_list_letters :
  forallb (fun w => negb (Nat.eqb (length w) 0) && forallb letter w) word_list = true.
Proof. vm_compute. reflexivity. Qed.

Lemma bytes_ltb_irrefl : forall a, bytes_ltb a a = false.
Proof.
  induction a as [|x a IH]; [reflexivity|]. cbn [bytes_ltb]. rewrite N.ltb_irrefl, IH.
  now rewrite andb_false_r.
Qed.

Lemma bytes_ltb_trans : forall a b c, bytes_ltb a b = true -> bytes_ltb b c = true ->
  bytes_ltb a c = true.
Proof.
  induction a as [|x a IH]; intros [|y b] [|z c] H1 H2; cbn [bytes_ltb] in *;
    try discriminate; try reflexivity.
  apply orb_true_iff in H1. apply orb_true_iff in H2. apply orb_true_iff.
  rewrite andb_true_iff, N.ltb_lt, N.eqb_eq in *.
  destruct H1 as [H1|[H1 H1']], H2 as [H2|[H2 H2']]; try (left; lia).
  right. split; [lia|]. now apply (IH b).
Qed.

Lemma increasing_all : forall l a, increasing (a :: l) = true ->
  forall b, In b l -> bytes_ltb a b = true.
Proof.
  induction l as [|x l IH]; intros a H b I; [contradiction|].
  cbn [increasing] in H. apply andb_true_iff in H. destruct H as [H1 H2].
  destruct I as [<-|I]; [assumption|]. apply bytes_ltb_trans with x; [assumption|]. now apply IH.
Qed.

Lemma increasing_nodup : forall l, increasing l = true -> NoDup l.
Proof.
  induction l as [|a l IH]; intros H; constructor.
  - intros I. pose proof (increasing_all l a H a I) as E. rewrite bytes_ltb_irrefl in E. discriminate.
  - apply IH. destruct l; [reflexivity|]. cbn [increasing] in H. now apply andb_true_iff in H.
Qed.

Lemma word_list_nodup : NoDup word_list.
Proof. apply increasing_nodup, word_list_sorted. Qed.

Lemma find_from_some : forall l i w k, find_from i w l = Some k ->
  i <= k /\ (N.to_nat (k - i) < length l)%nat /\ nth (N.to_nat (k - i)) l [] = w.
Proof.
  induction l as [|x l IH]; intros i w k H; [discriminate|]. cbn [find_from] in H.
  destruct (list_eq_dec Byte.byte_eq_dec x w) as [E|E].
  - injection H as <-. rewrite N.sub_diag. cbn [length nth N.to_nat]. repeat split; [lia|lia|assumption].
  - apply IH in H. destruct H as (H1 & H2 & H3).
    replace (N.to_nat (k - i)) with (S (N.to_nat (k - N.succ i))) by lia.
    cbn [length nth]. repeat split; [lia|lia|assumption].
Qed.

Lemma find_from_nth : forall l i n, NoDup l -> (n < length l)%nat ->
  find_from i (nth n l []) l = Some (i + N.of_nat n).
Proof.
  induction l as [|x l IH]; intros i n D H; [cbn in H; lia|].
  inversion D as [|x' l' NI D']; subst. cbn [find_from].
  destruct n as [|n].
  - cbn [nth]. destruct (list_eq_dec Byte.byte_eq_dec x x) as [_|N]; [|contradiction].
    f_equal. lia.
  - cbn [nth length] in *. destruct (list_eq_dec Byte.byte_eq_dec x (nth n l [])) as [E|_].
    + exfalso. apply NI. rewrite E. apply nth_In. lia.
    + rewrite IH by (try assumption; lia). f_equal. lia.
Qed.

Lemma in_list : forall i, i < 2048 -> (N.to_nat i < length word_list)%nat.
Proof. intros i H. rewrite word_list_length. lia. Qed.

Definition word_at (i : N) : bytes := nth (N.to_nat i) word_list [].

Lemma find_word_at : forall i, i < 2048 -> find_word (word_at i) = Some i.
Proof.
  intros i H. unfold find_word, word_at. rewrite find_from_nth.
  - f_equal. lia.
  - apply word_list_nodup.
  - now apply in_list.
Qed.

Lemma find_word_some : forall w i, find_word w = Some i -> i < 2048 /\ word_at i = w.
Proof.
  intros w i H. apply find_from_some in H. destruct H as (_ & H1 & H2).
  rewrite N.sub_0_r in *. split; [|exact H2]. pose proof word_list_length as L.
  unfold bytes in *. lia.
Qed.

Lemma find_words_at : forall is, Forall (fun i => i < 2048) is ->
  find_words (map word_at is) = Some is.
Proof.
  intros is H. induction H as [|i is Hi _ IH]; [reflexivity|].
  cbn [map find_words]. now rewrite find_word_at, IH.
Qed.

Lemma find_words_some : forall ws is, find_words ws = Some is ->
  Forall (fun i => i < 2048) is /\ map word_at is = ws.
Proof.
  induction ws as [|w ws IH]; intros is H; cbn [find_words] in H.
  - injection H as <-. split; [constructor|reflexivity].
  - destruct (find_word w) as [i|] eqn:E; [|discriminate].
    destruct (find_words ws) as [is'|] eqn:E'; [|discriminate]. injection H as <-.
    apply find_word_some in E. destruct E as [Hi Hw]. destruct (IH is' eq_refl) as [H1 H2].
    split; [constructor; assumption|]. cbn [map]. now rewrite Hw, H2.
Qed.

Lemma word_at_letters : forall i, i < 2048 -> word_at i <> [] /\ forallb letter (word_at i) = true.
Proof.
  intros i H. pose proof word_list_letters as L. rewrite forallb_forall in L.
  specialize (L (word_at i)). assert (I : In (word_at i) word_list).
  { apply nth_In. now apply in_list. }
  apply L in I. apply andb_true_iff in I. destruct I as [I1 I2]. split; [|assumption].
  intros E. rewrite E in I1. discriminate.
Qed.

(** ** Splitting a joined phrase *)

Lemma ws_len_letter : forall b r, letter b = true -> ws_len (b :: r) = 0%nat.
Proof. intros b r H. destruct b; try discriminate H; reflexivity. Qed.

Lemma split_letters : forall w cur r, forallb letter w = true ->
  split_ws 0 cur (w ++ r) = split_ws 0 (rev w ++ cur) r.
Proof.
  induction w as [|b w IH]; intros cur r H; [reflexivity|].
  cbn [forallb] in H. apply andb_true_iff in H. destruct H as [Hb Hw].
  cbn [app split_ws]. rewrite ws_len_letter by assumption. rewrite IH by assumption.
  cbn [rev]. now rewrite <- app_assoc.
Qed.

Lemma split_join : forall ws,
  Forall (fun w => w <> [] /\ forallb letter w = true) ws ->
  split_whitespace (join_words ws) = ws.
Proof.
  intros ws H. unfold split_whitespace. induction H as [|w ws [Hn Hl] Hr IH]; [reflexivity|].
  assert (F : forall r, (match rev w ++ [] with [] => [] | _ => [rev (rev w ++ [])] end) ++ r = w :: r).
  { intros r. rewrite app_nil_r. destruct (rev w) as [|x y] eqn:E.
    - apply (f_equal (@rev byte)) in E. rewrite rev_involutive in E. contradiction.
    - rewrite <- E, rev_involutive. reflexivity. }
  destruct ws as [|w' ws'].
  - cbn [join_words]. rewrite <- (app_nil_r w) at 1. rewrite split_letters by assumption.
    cbn [split_ws]. symmetry. etransitivity; [symmetry; apply (F [])|apply app_nil_r].
  - cbn [join_words]. cbn [join_words] in IH. rewrite split_letters by assumption.
    cbn [split_ws ws_len]. rewrite IH. apply F.
Qed.

(** ** Phrases *)

Definition good_len (n : nat) : Prop :=
  (n = 16 \/ n = 20 \/ n = 24 \/ n = 28 \/ n = 32)%nat.

Definition all_bits (e : bytes) : list bool :=
  byte_bits e ++ firstn (length e / 4) (byte_bits (sha256 e)).

Lemma all_bits_length : forall e, good_len (length e) ->
  length (all_bits e) = (3 * length e / 4 * 11)%nat.
Proof.
  intros e H. unfold all_bits. rewrite app_length, byte_bits_length, firstn_length.
  rewrite byte_bits_length, sha256_length.
  destruct H as [->|[->|[->|[->| ->]]]]; reflexivity.
Qed.

Lemma all_bits_value : forall e, good_len (length e) -> of_bits (all_bits e) = phrase_number e.
Proof.
  intros e H. unfold all_bits, phrase_number. cbv zeta. rewrite of_bits_app, of_byte_bits.
  rewrite of_bits_firstn.
  - rewrite firstn_length, !byte_bits_length, sha256_length, of_byte_bits.
    destruct H as [->|[->|[->|[->| ->]]]]; rewrite (N.mul_comm (from_be e)); reflexivity.
  - rewrite byte_bits_length, sha256_length. destruct H as [->|[->|[->|[->| ->]]]]; cbn; lia.
Qed.

Definition phrase_indices (e : bytes) : list N :=
  map of_bits (groups 11 (3 * length e / 4) (all_bits e)).

Lemma from_entropy_ok : forall e, good_len (length e) -> from_entropy_in e = inl (phrase_indices e).
Proof.
  intros e H. unfold from_entropy_in, phrase_indices, all_bits. cbv zeta.
  rewrite (Nat.mul_comm (length e) 3).
  destruct H as [->|[->|[->|[->| ->]]]]; reflexivity.
Qed.

Lemma phrase_indices_small : forall e, good_len (length e) ->
  Forall (fun i => i < 2048) (phrase_indices e).
Proof.
  intros e H. unfold phrase_indices. apply Forall_map.
  eapply Forall_impl; [|apply groups_each; rewrite all_bits_length by assumption; auto].
  intros g Hg. cbn beta. pose proof (of_bits_lt g) as B. rewrite Hg in B. exact B.
Qed.

Lemma phrase_indices_length : forall e, length (phrase_indices e) = (3 * length e / 4)%nat.
Proof. intros e. unfold phrase_indices. now rewrite map_length, groups_length. Qed.

Lemma flat_map_bits : forall k gs, Forall (fun g => length g = k) gs ->
  flat_map (bits k) (map of_bits gs) = concat gs.
Proof.
  intros k gs H. induction H as [|g gs Hg _ IH]; [reflexivity|].
  cbn [map flat_map concat]. now rewrite IH, bits_of_bits'.
Qed.

Lemma word_bits_phrase : forall e, good_len (length e) -> word_bits (phrase_indices e) = all_bits e.
Proof.
  intros e H. unfold word_bits, phrase_indices.
  rewrite flat_map_bits by (apply groups_each; rewrite all_bits_length by assumption; auto).
  apply groups_concat. now apply all_bits_length.
Qed.

Lemma words_of_phrase : forall e, good_len (length e) ->
  map word_at (phrase_indices e) = phrase_words e.
Proof.
  intros e H. unfold phrase_words. cbv zeta. set (k := (3 * length e / 4)%nat).
  apply nth_ext with (d := []) (d' := []).
  - rewrite !map_length, seq_length. apply phrase_indices_length.
  - intros i Hi. rewrite map_length, phrase_indices_length in Hi. fold k in Hi.
    change (@nil byte) with (word_at 2048) at 1.
    rewrite map_nth.
    assert (E : nth i (phrase_indices e) 2048 =
                phrase_number e / 2048 ^ N.of_nat (k - 1 - i) mod 2048).
    { unfold phrase_indices. fold k.
      rewrite (nth_indep _ 2048 (of_bits [])) by (rewrite map_length, groups_length; assumption).
      rewrite map_nth, groups_nth;
        [|assumption|rewrite all_bits_length by assumption; auto].
      pose proof (all_bits_length e H) as L. fold k in L.
      rewrite firstn_skipn_value by (rewrite L; nia).
      rewrite all_bits_value by assumption. change (2 ^ N.of_nat 11) with 2048.
      f_equal. f_equal. rewrite L. change 2048 with (2 ^ 11). rewrite <- N.pow_mul_r. f_equal. nia. }
    rewrite E.
    set (f := fun j => nth (N.to_nat (phrase_number e / 2048 ^ N.of_nat (k - 1 - j) mod 2048)) word_list []).
    rewrite (nth_indep _ [] (f 0%nat)) by (rewrite map_length, seq_length; assumption).
    rewrite map_nth, seq_nth by assumption. reflexivity.
Qed.

Lemma to_entropy_length : forall is, length (to_entropy is) = (length is / 3 * 4)%nat.
Proof. intros is. unfold to_entropy. now rewrite map_length, groups_length. Qed.

Lemma n2b_of_bits : forall b, n2b (of_bits (bits 8 (b2n b))) = b.
Proof.
  intros b. rewrite of_bits_bits. change (2 ^ N.of_nat 8) with 256.
  rewrite N.mod_small by apply b2n_bound. apply n2b_b2n.
Qed.

Lemma byte_bits_groups : forall e r,
  map (fun g => n2b (of_bits g)) (groups 8 (length e) (byte_bits e ++ r)) = e.
Proof.
  intros e r. unfold byte_bits. rewrite flat_map_concat_map.
  rewrite <- (map_length (fun b => bits 8 (b2n b)) e) at 1.
  rewrite groups_of_concat.
  - rewrite map_map. rewrite <- (map_id e) at 2. apply map_ext. intros b. apply n2b_of_bits.
  - apply Forall_map, Forall_forall. intros b _. apply bits_length.
Qed.

Lemma good_len_words : forall n, good_len n -> (3 * n / 4 / 3 * 4 = n)%nat.
Proof. intros n [->|[->|[->|[->| ->]]]]; reflexivity. Qed.

Lemma to_entropy_phrase : forall e, good_len (length e) -> to_entropy (phrase_indices e) = e.
Proof.
  intros e H. unfold to_entropy. rewrite phrase_indices_length, word_bits_phrase by assumption.
  rewrite good_len_words by assumption. apply byte_bits_groups.
Qed.

Lemma word_bits_length : forall is, length (word_bits is) = (11 * length is)%nat.
Proof.
  induction is as [|i is IH]; [reflexivity|].
  change (word_bits (i :: is)) with (bits 11 i ++ word_bits is).
  rewrite app_length, bits_length, IH. cbn [length]. lia.
Qed.

Lemma byte_bits_of_groups : forall gs, Forall (fun g => length g = 8%nat) gs ->
  byte_bits (map (fun g => n2b (of_bits g)) gs) = concat gs.
Proof.
  intros gs H. induction H as [|g gs Hg _ IH]; [reflexivity|].
  cbn [map concat]. rewrite byte_bits_cons, IH. f_equal.
  rewrite b2n_n2b. pose proof (of_bits_lt g) as B. rewrite Hg in B.
  rewrite N.mod_small by exact B. now apply bits_of_bits'.
Qed.

Lemma word_count_cases : forall n,
  (Nat.ltb n 12 || negb (Nat.eqb (n mod 3) 0) || Nat.ltb 24 n)%bool = false ->
  (n = 12 \/ n = 15 \/ n = 18 \/ n = 21 \/ n = 24)%nat.
Proof.
  intros n H. apply orb_false_iff in H. destruct H as [H H3].
  apply orb_false_iff in H. destruct H as [H1 H2].
  apply Nat.ltb_ge in H1. apply Nat.ltb_ge in H3. apply negb_false_iff, Nat.eqb_eq in H2.
  do 25 (destruct n as [|n]; [cbn in *; try lia; auto; try discriminate|]). lia.
Qed.

Lemma concat_groups_firstn : forall k n l, (n * k <= length l)%nat ->
  concat (groups k n l) = firstn (n * k) l.
Proof.
  induction n as [|n IH]; intros l H; [reflexivity|].
  cbn [groups concat Nat.mul] in *. rewrite IH by (rewrite skipn_length; lia).
  rewrite <- (firstn_skipn k l) at 3. rewrite firstn_app, firstn_length.
  replace (Nat.min k (length l)) with k by lia.
  rewrite (firstn_all2 (firstn k l)) by (rewrite firstn_length; lia).
  f_equal. f_equal. lia.
Qed.

(** what is accepted *)
Lemma parse_ok : forall s is, parse_in_normalized s = inl is <->
  exists e, good_len (length e) /\ split_whitespace s = phrase_words e /\ is = phrase_indices e.
Proof.
  intros s is. split.
  - intros H. unfold parse_in_normalized in H. cbv zeta in H.
    destruct (Nat.ltb (length (split_whitespace s)) 12 ||
      negb (Nat.eqb (length (split_whitespace s) mod 3) 0) ||
      Nat.ltb 24 (length (split_whitespace s)))%bool eqn:C; [discriminate|].
    apply word_count_cases in C.
    destruct (find_words (split_whitespace s)) as [idx|] eqn:Fw; [|discriminate].
    destruct (list_eq_dec _ _ _) as [E|]; [|discriminate]. injection H as <-.
    apply find_words_some in Fw. destruct Fw as [Sm Mw].
    set (e := to_entropy idx) in *.
    assert (Ln : length idx = length (split_whitespace s)) by (rewrite <- Mw, map_length; reflexivity).
    rewrite <- Ln in C.
    assert (Le : length e = (length idx / 3 * 4)%nat) by apply to_entropy_length.
    assert (G : good_len (length e)).
    { rewrite Le. destruct C as [->|[->|[->|[->| ->]]]]; unfold good_len; cbn; tauto. }
    assert (Wb : word_bits idx = all_bits e).
    { unfold all_bits. rewrite <- (firstn_skipn (8 * length e) (word_bits idx)). f_equal.
      - unfold e, to_entropy. rewrite byte_bits_of_groups.
        + rewrite map_length, groups_length, concat_groups_firstn; [f_equal; lia|].
          rewrite word_bits_length. destruct C as [->|[->|[->|[->| ->]]]]; cbn; lia.
        + apply groups_each. rewrite word_bits_length.
          destruct C as [->|[->|[->|[->| ->]]]]; cbn; lia.
      - rewrite <- E. symmetry. apply firstn_all2.
        rewrite skipn_length, word_bits_length, Le.
        destruct C as [->|[->|[->|[->| ->]]]]; cbn; lia. }
    assert (Ei : idx = phrase_indices e).
    { unfold phrase_indices. rewrite <- Wb. unfold word_bits. rewrite flat_map_concat_map.
      replace (3 * length e / 4)%nat with (length (map (bits 11) idx)).
      - rewrite <- (app_nil_r (concat _)). rewrite groups_of_concat.
        + rewrite map_map. rewrite <- (map_id idx) at 1. apply map_ext_in.
          intros i I. rewrite of_bits_bits. symmetry. apply N.mod_small.
          rewrite Forall_forall in Sm. now apply Sm.
        + apply Forall_map, Forall_forall. intros i _. apply bits_length.
      - rewrite map_length, Le. destruct C as [->|[->|[->|[->| ->]]]]; reflexivity. }
    exists e. split; [assumption|]. split; [|assumption].
    rewrite <- Mw, Ei at 1. now apply words_of_phrase.
  - intros (e & G & W & ->). unfold parse_in_normalized. cbv zeta. rewrite W.
    rewrite <- words_of_phrase by assumption.
    rewrite find_words_at by now apply phrase_indices_small.
    rewrite to_entropy_phrase, word_bits_phrase by assumption.
    rewrite map_length, phrase_indices_length.
    replace (Nat.ltb (3 * length e / 4) 12 || negb (Nat.eqb ((3 * length e / 4) mod 3) 0) ||
             Nat.ltb 24 (3 * length e / 4))%bool with false
      by (destruct G as [->|[->|[->|[->| ->]]]]; reflexivity).
    destruct (list_eq_dec _ _ _) as [|N]; [reflexivity|]. exfalso. apply N. clear N.
    unfold all_bits. rewrite <- (byte_bits_length e).
    rewrite skipn_app, Nat.sub_diag, skipn_O, skipn_all. cbn [app].
    rewrite firstn_firstn. f_equal. apply Nat.min_id.
Qed.

Lemma good_16 : forall s : seed, good_len (length (aval s)).
Proof. intros s. rewrite arr_len. now left. Qed.

Lemma phrase_indices_inj : forall e e', good_len (length e) -> good_len (length e') ->
  phrase_indices e = phrase_indices e' -> e = e'.
Proof.
  intros e e' G G' H. rewrite <- (to_entropy_phrase e G), <- (to_entropy_phrase e' G'). now rewrite H.
Qed.

Lemma phrase_words_inj : forall e e', good_len (length e) -> good_len (length e') ->
  phrase_words e = phrase_words e' -> e = e'.
Proof.
  intros e e' G G' H. apply phrase_indices_inj; try assumption.
  rewrite <- !words_of_phrase in H by assumption.
  apply (f_equal find_words) in H.
  rewrite !find_words_at in H by now apply phrase_indices_small. congruence.
Qed.

(** ** Seeds *)

Lemma to_mnemonic_spec : forall s, to_mnemonic s = Val (join_words (phrase_words (aval s))).
Proof.
  intros s. unfold to_mnemonic. rewrite from_entropy_ok by apply good_16.
  unfold mnemonic_text. f_equal. f_equal. apply words_of_phrase, good_16.
Qed.

Lemma from_mnemonic_spec : forall nfkd t s,
  from_mnemonic nfkd t = inl s <-> split_whitespace (nfkd t) = phrase_words (aval s).
Proof.
  intros nfkd t s. unfold from_mnemonic. split.
  - intros H. destruct (parse_in_normalized (nfkd t)) as [m|] eqn:P; [|discriminate].
    apply parse_ok in P. destruct P as (e & G & W & ->). cbv zeta in H.
    rewrite to_entropy_phrase in H by assumption.
    destruct (Nat.eqb_spec (length e) 16) as [L|]; [|discriminate]. cbn [negb] in H.
    assert (Es : s = arr_of 16 (firstn 16 e)) by congruence.
    rewrite W, Es, firstn_all2 by lia. f_equal. symmetry. now apply arr_of_aval.
  - intros W. destruct (parse_in_normalized (nfkd t)) as [m|] eqn:P.
    + apply parse_ok in P. destruct P as (e & G & W' & ->). cbv zeta.
      rewrite to_entropy_phrase by assumption.
      assert (e = aval s) by (apply phrase_words_inj; try assumption; [apply good_16|congruence]).
      subst e. rewrite arr_len. cbn [Nat.eqb negb]. f_equal.
      rewrite firstn_all2 by (rewrite arr_len; auto). apply arr_of_id.
    + exfalso. assert (Q : parse_in_normalized (nfkd t) = inl (phrase_indices (aval s))).
      { apply parse_ok. exists (aval s). repeat split; [apply good_16|assumption]. }
      rewrite P in Q. discriminate Q.
Qed.

Lemma from_mnemonic_length : forall nfkd t,
  from_mnemonic nfkd t = inr SeedInvalidLength <->
  exists e, (length e = 20 \/ length e = 24 \/ length e = 28 \/ length e = 32)%nat /\
    split_whitespace (nfkd t) = phrase_words e.
Proof.
  intros nfkd t. unfold from_mnemonic. split.
  - intros H. destruct (parse_in_normalized (nfkd t)) as [m|] eqn:P; [|discriminate].
    apply parse_ok in P. destruct P as (e & G & W & ->). cbv zeta in H.
    rewrite to_entropy_phrase in H by assumption. exists e. split; [|assumption].
    destruct G as [L|G]; [|exact G]. rewrite L in H. discriminate H.
  - intros (e & L & W).
    assert (Q : parse_in_normalized (nfkd t) = inl (phrase_indices e)).
    { apply parse_ok. exists e. repeat split; [now right|assumption]. }
    rewrite Q. cbv zeta. rewrite to_entropy_phrase by now right.
    destruct L as [->|[->|[->| ->]]]; reflexivity.
Qed.

Lemma phrase_letters : forall e, good_len (length e) ->
  Forall (fun w => w <> [] /\ forallb letter w = true) (phrase_words e).
Proof.
  intros e G. rewrite <- words_of_phrase by assumption. apply Forall_map.
  eapply Forall_impl; [|apply phrase_indices_small; assumption]. apply word_at_letters.
Qed.

Lemma letter_ascii : forall b, letter b = true -> b2n b < 128.
Proof.
  intros b H. unfold letter in H. apply andb_true_iff in H. destruct H as [_ H].
  apply N.leb_le in H. lia.
Qed.

Lemma join_ascii : forall ws, Forall (fun w => w <> [] /\ forallb letter w = true) ws ->
  ascii_only (join_words ws).
Proof.
  intros ws H. induction H as [|w ws [_ Hl] Hr IH]; [constructor|].
  assert (A : ascii_only w).
  { apply Forall_forall. intros b I. rewrite forallb_forall in Hl. now apply letter_ascii, Hl. }
  destruct ws; [exact A|]. cbn [join_words]. apply Forall_app. split; [exact A|].
  constructor; [reflexivity|exact IH].
Qed.

Lemma seed_roundtrip : forall nfkd, (forall t, ascii_only t -> nfkd t = t) -> forall s,
  exists t, to_mnemonic s = Val t /\ from_mnemonic nfkd t = inl s.
Proof.
  intros nfkd H s. exists (join_words (phrase_words (aval s))).
  pose proof (phrase_letters (aval s) (good_16 s)) as L.
  split; [apply to_mnemonic_spec|]. apply from_mnemonic_spec.
  rewrite H by now apply join_ascii. now apply split_join.
Qed.

Lemma phrase_words_length : forall e, length (phrase_words e) = (3 * length e / 4)%nat.
Proof. intros e. unfold phrase_words. cbv zeta. now rewrite map_length, seq_length. Qed.

Lemma phrase_words_in_list : forall s : seed, length (phrase_words (aval s)) = 12%nat /\
  Forall (fun w => In w word_list) (phrase_words (aval s)).
Proof.
  intros s. rewrite phrase_words_length, arr_len. split; [reflexivity|].
  rewrite <- words_of_phrase by apply good_16. apply Forall_map.
  eapply Forall_impl; [|apply phrase_indices_small, good_16].
  intros i Hi. apply nth_In. now apply in_list.
Qed.

(** ** Derived keys *)

Definition key_input (s : seed) (i : u64) : bytes := derived_input (aval s) (uval i).

Lemma private_key_spec : forall s i,
  seed_private_key s i = from_seed (arr_of 32 (blake2b_256 (key_input s i))).
Proof.
  intros s i. unfold seed_private_key, key_input, derived_input. cbv zeta.
  rewrite hash_aval. reflexivity.
Qed.

Lemma from_seed_inj : forall a b, from_seed a = from_seed b -> a = b.
Proof. intros a b H. rewrite <- (from_seed_first_half a), <- (from_seed_first_half b). now rewrite H. Qed.

Lemma private_key_binds : forall s i s' i',
  seed_private_key s i = seed_private_key s' i' ->
  (s = s' /\ i = i') \/
  Collision [aval s; key_input s i] [aval s'; key_input s' i'].
Proof.
  intros s i s' i' H. rewrite !private_key_spec in H. apply from_seed_inj in H.
  apply (f_equal aval) in H. rewrite !arr_of_aval in H by apply blake2b_256_length.
  destruct (list_eq_dec Byte.byte_eq_dec (key_input s i) (key_input s' i')) as [E|N].
  2:{ right. exists (key_input s i), (key_input s' i'). repeat split; try assumption; right; now left. }
  unfold key_input, derived_input in E.
  assert (L : length (blake2b_256 (aval s)) = length (blake2b_256 (aval s'))).
  { now rewrite !blake2b_256_length. }
  apply app_len_inj in E; [|exact L]. destruct E as [E1 E2].
  destruct (list_eq_dec Byte.byte_eq_dec (aval s) (aval s')) as [Es|N].
  2:{ right. exists (aval s), (aval s'). repeat split; try assumption; now left. }
  left. split; [now apply arr_eq|]. apply uint_eq.
  apply (f_equal from_le) in E2. rewrite !from_le_le_bytes in E2.
  rewrite !N.mod_small in E2 by (apply uint_lt). exact E2.
Qed.

(** ** [split_whitespace] gives the words *)

Definition whiteb (c : N) : bool :=
  (9 <=? c) && (c <=? 13) || (c =? 32) || (c =? 133) || (c =? 160) || (c =? 5760) ||
  (8192 <=? c) && (c <=? 8202) || (c =? 8232) || (c =? 8233) || (c =? 8239) || (c =? 8287) ||
  (c =? 12288).

Lemma whiteb_spec : forall c, whiteb c = true <-> white c.
Proof.
  intros c. unfold whiteb, white. rewrite !orb_true_iff, !andb_true_iff, !N.leb_le, !N.eqb_eq. tauto.
Qed.

Lemma ws_len_three : forall a b c r, ws_len (a :: b :: c :: r) = ws_len [a; b; c].
Proof.
  intros a b c r. destruct a; try reflexivity; destruct b; try reflexivity; destruct c; reflexivity.
Qed.

(** what [ws_len] must answer at a character *)
Definition ws_expected (c : N) : nat := if whiteb c then length (utf8_char c) else 0%nat.

Definition ws_check (c : N) : bool := Nat.eqb (ws_len (utf8_char c)) (ws_expected c).

Fixpoint check_below (n : nat) (c : N) : bool :=
  match n with O => true | S n' => ws_check c && check_below n' (N.succ c) end.

Lemma check_below_ok : forall n c, check_below n c = true ->
  forall d, c <= d -> d < c + N.of_nat n -> ws_check d = true.
Proof.
  induction n as [|n IH]; intros c H d H1 H2; [lia|]. cbn [check_below] in H.
  apply andb_true_iff in H. destruct H as [Hc H].
  destruct (N.eq_dec d c) as [->|]; [assumption|]. apply (IH (N.succ c)); [assumption|lia|lia].
Qed.

Lemma ws_check_bmp : check_below (N.to_nat 0x10000) 0 = true.
Proof. vm_cast_no_check (eq_refl true). Qed.

Lemma ws_check_one : forall c, c < 0x10000 -> ws_len (utf8_char c) = ws_expected c.
Proof.
  intros c H. apply Nat.eqb_eq. apply (check_below_ok _ _ ws_check_bmp); [lia|].
  rewrite N2Nat.id. lia.
Qed.

Lemma ws_len_one : forall a r, b2n a < 128 -> ws_len (a :: r) = ws_len [a].
Proof. intros a r H. destruct a; try reflexivity; exfalso; vm_compute in H; discriminate H. Qed.

Lemma ws_len_two : forall a b r, b2n a < 0xE0 -> ws_len (a :: b :: r) = ws_len [a; b].
Proof.
  intros a b r H. destruct a; try reflexivity; try (exfalso; vm_compute in H; discriminate H);
    destruct b; reflexivity.
Qed.

Lemma ws_len_four : forall a r, 0xF0 <= b2n a -> ws_len (a :: r) = 0%nat.
Proof.
  intros a r H. destruct a; try reflexivity; exfalso; vm_compute in H; now apply H.
Qed.

Lemma whiteb_big : forall c, 0x10000 <= c -> whiteb c = false.
Proof.
  intros c H. destruct (whiteb c) eqn:E; [|reflexivity]. apply whiteb_spec in E. unfold white in E. lia.
Qed.

Lemma ws_len_char : forall c r, scalar c -> ws_len (utf8_char c ++ r) = ws_expected c.
Proof.
  intros c r Hs. destruct (N.ltb_spec c 0x10000) as [Hc|Hc].
  - rewrite <- ws_check_one by assumption. unfold utf8_char.
    destruct (N.ltb_spec c 0x80) as [H1|H1].
    + cbn [app]. apply ws_len_one. rewrite b2n_n2b, N.mod_small; lia.
    + destruct (N.ltb_spec c 0x800) as [H2|H2].
      * cbn [app]. apply ws_len_two. rewrite b2n_n2b.
        assert (c / 64 < 32) by (apply N.div_lt_upper_bound; lia). rewrite N.mod_small; lia.
      * destruct (N.ltb_spec c 0x10000); [|lia]. apply ws_len_three.
  - unfold ws_expected. rewrite whiteb_big by assumption. unfold utf8_char.
    destruct (N.ltb_spec c 0x80); [lia|]. destruct (N.ltb_spec c 0x800); [lia|].
    destruct (N.ltb_spec c 0x10000); [lia|]. cbn [app]. apply ws_len_four.
    rewrite b2n_n2b. destruct Hs as [|[_ Hs]]; [lia|].
    assert (c / 262144 < 5) by (apply N.div_lt_upper_bound; lia).
    rewrite N.mod_small; lia.
Qed.

Lemma utf8_char_nonempty : forall c, utf8_char c <> [].
Proof.
  intros c. unfold utf8_char. destruct (c <? 0x80); [discriminate|].
  destruct (c <? 0x800); [discriminate|]. destruct (c <? 0x10000); discriminate.
Qed.

Lemma split_skip : forall l cur r, split_ws (length l) cur (l ++ r) = split_ws 0 cur r.
Proof. induction l as [|b l IH]; intros cur r; [reflexivity|]. cbn [length app split_ws]. apply IH. Qed.

Definition is_cont_byte (b : byte) : Prop := 128 <= b2n b < 192.

Lemma ws_len_cont : forall b r, is_cont_byte b -> ws_len (b :: r) = 0%nat.
Proof.
  intros b r [H1 H2]. destruct b; try reflexivity; exfalso; vm_compute in H1; now apply H1.
Qed.

Lemma split_cont : forall l cur r, Forall is_cont_byte l ->
  split_ws 0 cur (l ++ r) = split_ws 0 (rev l ++ cur) r.
Proof.
  intros l cur r H. revert cur. induction H as [|b l Hb _ IH]; intros cur; [reflexivity|].
  cbn [app split_ws]. rewrite ws_len_cont by assumption. rewrite IH. cbn [rev].
  now rewrite <- app_assoc.
Qed.

Lemma cont_n2b : forall n, is_cont_byte (n2b (0x80 + n mod 64)).
Proof.
  intros n. unfold is_cont_byte. assert (n mod 64 < 64) by (apply N.mod_upper_bound; discriminate).
  rewrite b2n_n2b, N.mod_small; lia.
Qed.

Lemma utf8_char_tail : forall c, exists b l, utf8_char c = b :: l /\ Forall is_cont_byte l.
Proof.
  intros c. unfold utf8_char. destruct (c <? 0x80).
  - eexists _, _. split; [reflexivity|constructor].
  - destruct (c <? 0x800); [|destruct (c <? 0x10000)];
      (eexists _, _; split; [reflexivity|]; repeat constructor; apply cont_n2b).
Qed.

Lemma split_char : forall c cur r, scalar c -> ~ white c ->
  split_ws 0 cur (utf8_char c ++ r) = split_ws 0 (rev (utf8_char c) ++ cur) r.
Proof.
  intros c cur r Hs Hw. pose proof (ws_len_char c r Hs) as W. unfold ws_expected in W.
  destruct (whiteb c) eqn:E; [exfalso; now apply Hw, whiteb_spec|].
  destruct (utf8_char_tail c) as (b & l & Eq & F). rewrite Eq in *.
  cbn [app split_ws]. cbn [app] in W. rewrite W. rewrite split_cont by assumption.
  cbn [rev]. now rewrite <- app_assoc.
Qed.

Definition flushed (cur : bytes) : list bytes := match cur with [] => [] | _ => [rev cur] end.

Lemma split_white : forall c cur r, scalar c -> white c ->
  split_ws 0 cur (utf8_char c ++ r) = flushed cur ++ split_ws 0 [] r.
Proof.
  intros c cur r Hs Hw. pose proof (ws_len_char c r Hs) as W. unfold ws_expected in W.
  apply whiteb_spec in Hw. rewrite Hw in W.
  destruct (utf8_char_tail c) as (b & l & Eq & F). rewrite Eq in *.
  cbn [app split_ws]. cbn [app length] in W. rewrite W, split_skip. reflexivity.
Qed.

Lemma split_word : forall w cur r, Forall scalar w -> Forall (fun c => ~ white c) w ->
  split_ws 0 cur (utf8 w ++ r) = split_ws 0 (rev (utf8 w) ++ cur) r.
Proof.
  unfold utf8. induction w as [|c w IH]; intros cur r Hs Hw; [reflexivity|].
  inversion Hs; inversion Hw; subst. cbn [map concat]. rewrite <- app_assoc.
  rewrite split_char by assumption. rewrite IH by assumption.
  now rewrite rev_app_distr, <- app_assoc.
Qed.

Lemma utf8_app : forall a b, utf8 (a ++ b) = utf8 a ++ utf8 b.
Proof. intros a b. unfold utf8. now rewrite map_app, concat_app. Qed.

Lemma words_nil : forall ws, Words [] ws -> ws = [].
Proof.
  intros ws H. remember [] as cs eqn:E. destruct H as [|c cs ws _ _|w cs ws N _ _ _].
  - reflexivity.
  - discriminate E.
  - exfalso. apply N. now apply app_eq_nil in E.
Qed.

Lemma split_words : forall cs ws, Words cs ws -> Forall scalar cs ->
  split_whitespace (utf8 cs) = map utf8 ws.
Proof.
  unfold split_whitespace. intros cs ws H. induction H as [|c cs ws Hw H IH|w cs ws Hn Hw Hc H IH];
    intros Hs.
  - reflexivity.
  - inversion Hs; subst. change (utf8 (c :: cs)) with (utf8_char c ++ utf8 cs).
    rewrite split_white by assumption. now apply IH.
  - apply Forall_app in Hs. destruct Hs as [Hs1 Hs2]. rewrite utf8_app, split_word by assumption.
    rewrite app_nil_r. cbn [map].
    assert (Fl : flushed (rev (utf8 w)) = [utf8 w]).
    { assert (N : utf8 w <> []).
      { destruct w as [|c w]; [contradiction|]. change (utf8 (c :: w)) with (utf8_char c ++ utf8 w).
        pose proof (utf8_char_nonempty c). destruct (utf8_char c); [contradiction|discriminate]. }
      unfold flushed. destruct (rev (utf8 w)) eqn:E.
      - exfalso. apply N. rewrite <- (rev_involutive (utf8 w)), E. reflexivity.
      - rewrite <- E, rev_involutive. reflexivity. }
    destruct cs as [|c r].
    + apply words_nil in H. subst ws.
      change (utf8 []) with (@nil byte). cbn [split_ws map].
      change (flushed (rev (utf8 w)) = [utf8 w]). exact Fl.
    + specialize (IH Hs2). change (utf8 (c :: r)) with (utf8_char c ++ utf8 r) in *.
      inversion Hs2; subst.
      pose proof (Hc c r eq_refl) as Wc.
      rewrite split_white by assumption. rewrite split_white in IH by assumption.
      cbn [flushed app] in IH. now rewrite Fl, IH.
Qed.

(** every text has words, and only one way of having them *)
Lemma white_dec : forall c, white c \/ ~ white c.
Proof.
  intros c. destruct (whiteb c) eqn:E; [left; now apply whiteb_spec|right].
  intros W. apply whiteb_spec in W. congruence.
Qed.

Lemma words_exist : forall cs, exists ws, Words cs ws.
Proof.
  assert (G : forall cs, exists w r ws, cs = w ++ r /\ Forall (fun c => ~ white c) w /\
    (forall c r', r = c :: r' -> white c) /\ Words r ws).
  { induction cs as [|c cs (w & r & ws & E & F & B & W)].
    - exists [], [], []. repeat split; [constructor|discriminate|constructor].
    - destruct (white_dec c) as [Wc|Nc].
      + destruct w as [|x w].
        * exists [], (c :: cs), ws. cbn [app] in E. subst r. repeat split; [constructor| |now constructor].
          intros c' r' E'. injection E' as <- _. assumption.
        * exists [], (c :: cs), ((x :: w) :: ws). repeat split; [constructor| |].
          -- intros c' r' E'. injection E' as <- _. assumption.
          -- constructor; [assumption|]. rewrite E. apply W_word; try assumption. discriminate.
      + exists (c :: w), r, ws. rewrite E. repeat split; try assumption. now constructor. }
  intros cs. destruct (G cs) as (w & r & ws & -> & F & B & W).
  destruct w as [|x w]; [now exists ws|]. exists ((x :: w) :: ws). apply W_word; try assumption. discriminate.
Qed.

(** ** Statements *)

Lemma join_spaced : forall ws, ws <> [] ->
  concat (map (fun w => w ++ [" "%byte]) ws) = join_words ws ++ [" "%byte].
Proof.
  induction ws as [|w ws IH]; intros N; [contradiction|]. destruct ws as [|w' ws'].
  - cbn [map concat join_words]. apply app_nil_r.
  - cbn [map concat]. cbn [map concat] in IH. rewrite IH by discriminate.
    change (join_words (w :: w' :: ws')) with (w ++ " "%byte :: join_words (w' :: ws')).
    now rewrite <- !app_assoc.
Qed.

Lemma phrase_text : forall s, exists t, to_mnemonic s = Val t /\
  t ++ [" "%byte] = concat (map (fun w => w ++ [" "%byte]) (phrase_words (aval s))).
Proof.
  intros s. eexists. split; [apply to_mnemonic_spec|]. symmetry. apply join_spaced.
  intros E. pose proof (phrase_words_length (aval s)) as L. rewrite E, arr_len in L. discriminate L.
Qed.

Lemma accepts_words : forall nfkd t cs ws s, Forall scalar cs -> nfkd t = utf8 cs -> Words cs ws ->
  from_mnemonic nfkd t = inl s <-> map utf8 ws = phrase_words (aval s).
Proof.
  intros nfkd t cs ws s Hs E W. rewrite from_mnemonic_spec, E, (split_words cs ws W Hs). tauto.
Qed.

Lemma length_words : forall nfkd t cs ws, Forall scalar cs -> nfkd t = utf8 cs -> Words cs ws ->
  from_mnemonic nfkd t = inr SeedInvalidLength <->
  exists e, (length e = 20 \/ length e = 24 \/ length e = 28 \/ length e = 32)%nat /\
    map utf8 ws = phrase_words e.
Proof.
  intros nfkd t cs ws Hs E W. rewrite from_mnemonic_length, E, (split_words cs ws W Hs). tauto.
Qed.

Lemma restored_keys : forall nfkd, (forall t, ascii_only t -> nfkd t = t) -> forall s t,
  to_mnemonic s = Val t ->
  exists s', from_mnemonic nfkd t = inl s' /\
    forall i, seed_private_key s' i = seed_private_key s i.
Proof.
  intros nfkd H s t E. destruct (seed_roundtrip nfkd H s) as (t' & E' & R).
  exists s. split; [congruence|reflexivity].
Qed.

Lemma key_bytes : forall s i,
  sk_as_bytes (seed_private_key s i) =
  derived_seed (aval s) (uval i) ++ point_bytes (public_point (derived_seed (aval s) (uval i))).
Proof.
  intros s i. rewrite private_key_spec. unfold sk_as_bytes, from_seed. rewrite keypair_bytes_spec.
  rewrite arr_of_aval by apply blake2b_256_length. reflexivity.
Qed.

Lemma public_keys_scalar : forall s i s' i',
  sk_public_key (seed_private_key s i) = sk_public_key (seed_private_key s' i') ->
  secret_scalar (derived_seed (aval s) (uval i)) =
  secret_scalar (derived_seed (aval s') (uval i')).
Proof.
  intros s i s' i' H. rewrite !private_key_spec in H. apply public_key_scalar in H.
  rewrite !arr_of_aval in H by apply blake2b_256_length. exact H.
Qed.

Lemma phrases_differ : forall e e',
  In (length e) [16; 20; 24; 28; 32]%nat -> In (length e') [16; 20; 24; 28; 32]%nat ->
  phrase_words e = phrase_words e' -> e = e'.
Proof.
  assert (G : forall n, In n [16; 20; 24; 28; 32]%nat -> good_len n)
    by (intros n H; unfold good_len; cbn [In] in H; lia).
  intros e e' H H'. apply phrase_words_inj; now apply G.
Qed.

Lemma inputs_differ : forall (s : seed) (i i' : u64),
  derived_input (aval s) (uval i) = derived_input (aval s) (uval i') -> i = i'.
Proof.
  intros s i i' E. unfold derived_input in E. apply app_inv_head in E.
  apply uint_eq. apply (f_equal from_le) in E. rewrite !from_le_le_bytes in E.
  rewrite !N.mod_small in E by apply uint_lt. exact E.
Qed.
