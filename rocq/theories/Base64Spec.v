(** The base64 functions of the model against the specification. *)

From Verif Require Import Base Model_json SpecBase64 Base64Proofs.
Local Open Scope N_scope.

Definition range (n : nat) : list N := map N.of_nat (seq 0 n).
Definition bools_eqb (a b : list bool) : bool := if list_eq_dec Bool.bool_dec a b then true else false.
Lemma bools_eqb_eq : forall a b, bools_eqb a b = true -> a = b.
Proof. intros a b. unfold bools_eqb. now destruct (list_eq_dec Bool.bool_dec a b). Qed.

Lemma in_range_n : forall n k, n < N.of_nat k -> In n (range k).
Proof. intros n k H. unfold range. apply in_map_iff. exists (N.to_nat n). split; [lia|]. apply in_seq. lia. Qed.

Lemma check_n : forall (f : N -> bool) k, forallb f (range k) = true -> forall n, n < N.of_nat k -> f n = true.
Proof. intros f k H n L. rewrite forallb_forall in H. apply H. now apply in_range_n. Qed.

Lemma byte_62 : forall n, n < 256 -> bits 8 n = bits 6 (n / 4) ++ bits 2 (n mod 4).
Proof. intros n H. apply bools_eqb_eq. now apply (check_n (fun n => bools_eqb (bits 8 n) (bits 6 (n / 4) ++ bits 2 (n mod 4))) 256). Qed.
Lemma byte_44 : forall n, n < 256 -> bits 8 n = bits 4 (n / 16) ++ bits 4 (n mod 16).
Proof. intros n H. apply bools_eqb_eq. now apply (check_n (fun n => bools_eqb (bits 8 n) (bits 4 (n / 16) ++ bits 4 (n mod 16))) 256). Qed.
Lemma byte_26 : forall n, n < 256 -> bits 8 n = bits 2 (n / 64) ++ bits 6 (n mod 64).
Proof. intros n H. apply bools_eqb_eq. now apply (check_n (fun n => bools_eqb (bits 8 n) (bits 2 (n / 64) ++ bits 6 (n mod 64))) 256). Qed.
Lemma group_24 : forall x y, x < 4 -> y < 16 -> bits 6 (x * 16 + y) = bits 2 x ++ bits 4 y.
Proof.
  intros x y Hx Hy. apply bools_eqb_eq.
  apply (check_n (fun y => bools_eqb (bits 6 (x * 16 + y)) (bits 2 x ++ bits 4 y)) 16); [|exact Hy].
  now apply (check_n (fun x => forallb (fun y => bools_eqb (bits 6 (x * 16 + y)) (bits 2 x ++ bits 4 y)) (range 16)) 4).
Qed.
Lemma group_42 : forall x y, x < 16 -> y < 4 -> bits 6 (x * 4 + y) = bits 4 x ++ bits 2 y.
Proof.
  intros x y Hx Hy. apply bools_eqb_eq.
  apply (check_n (fun y => bools_eqb (bits 6 (x * 4 + y)) (bits 4 x ++ bits 2 y)) 4); [|exact Hy].
  now apply (check_n (fun x => forallb (fun y => bools_eqb (bits 6 (x * 4 + y)) (bits 4 x ++ bits 2 y)) (range 4)) 16).
Qed.

Lemma byte_lt : forall b, b2n b < 256.
Proof. intros b. apply Byte.to_N_bounded || (unfold b2n; pose proof (Byte.to_N_bounded b); lia). Qed.

Lemma part_lt : forall b k m, b < k * m -> k <> 0 -> b / k < m /\ b mod k < k.
Proof. intros b k m H K. split; [apply N.div_lt_upper_bound; lia|apply N.mod_lt; exact K]. Qed.

Lemma bits_length : forall k n, length (bits k n) = k.
Proof. induction k as [|k IH]; intros n; cbn; auto. Qed.

Lemma flat_bits_length : forall A (f : A -> N) k l, length (flat_map (fun x => bits k (f x)) l) = (k * length l)%nat.
Proof. intros A f k. induction l as [|x l IH]; cbn; [lia|]. rewrite app_length, bits_length, IH. lia. Qed.

Lemma bits_inj : forall k x y, x < 2 ^ N.of_nat k -> y < 2 ^ N.of_nat k -> bits k x = bits k y -> x = y.
Proof.
  intros k x y Hx Hy E. apply N.bits_inj. intros i.
  assert (G : forall j m n, bits j m = bits j n -> forall i, i < N.of_nat j -> N.testbit m i = N.testbit n i).
  { clear. induction j as [|j IH]; intros m n E i L; [lia|]. cbn [bits] in E. inversion E as [[E1 E2]].
    destruct (N.eq_dec i (N.of_nat j)) as [->|]; [exact E1|]. apply (IH _ _ E2). lia. }
  destruct (N.lt_ge_cases i (N.of_nat k)) as [L|L]; [exact (G k x y E i L)|].
  assert (T : forall z, z < 2 ^ N.of_nat k -> N.testbit z i = false).
  { intros z Hz. destruct (N.eq_dec z 0) as [->|]; [apply N.bits_0|]. apply N.bits_above_log2.
    apply N.lt_le_trans with (N.of_nat k); [|exact L]. apply N.log2_lt_pow2; lia. }
  now rewrite !T.
Qed.

Lemma flat_bits_inj : forall k l m, Forall (fun g => g < 2 ^ N.of_nat k) l -> Forall (fun g => g < 2 ^ N.of_nat k) m ->
  length l = length m -> flat_map (bits k) l = flat_map (bits k) m -> l = m.
Proof.
  intros k. induction l as [|x l IH]; intros [|y m] Fl Fm L E; try discriminate; [reflexivity|].
  cbn [flat_map] in E. inversion Fl; subst. inversion Fm; subst.
  assert (E1 : bits k x = bits k y).
  { apply (f_equal (firstn k)) in E. rewrite !firstn_app, !bits_length, !Nat.sub_diag in E. cbn [firstn] in E.
    rewrite !app_nil_r, !firstn_all2 in E by (rewrite bits_length; lia). exact E. }
  rewrite E1 in E. apply app_inv_head in E. f_equal; [now apply (bits_inj k)|]. apply IH; auto.
Qed.

Lemma symbol_same : forall n, nth (N.to_nat n) base64_alphabet x00 = b64_symbol n.
Proof. reflexivity. Qed.

Lemma encode_is_base64 : forall l, Base64Text (b64_encode l) l.
Proof.
  induction l as [ |a|a b|a b c r IH] using b64_ind.
  - exists [], 0%nat, 0%nat. repeat split; try constructor; lia.
  - destruct (part_lt (b2n a) 4 64 (byte_lt a)) as [A1 A2]; [lia|].
    exists [b2n a / 4; b2n a mod 4 * 16], 4%nat, 2%nat. repeat split; try lia.
    + cbn [flat_map]. rewrite !app_nil_r. rewrite (byte_62 (b2n a) (byte_lt a)), <- app_assoc. f_equal.
      rewrite <- (N.add_0_r (b2n a mod 4 * 16)), group_24 by lia. reflexivity.
    + repeat constructor; lia.
  - destruct (part_lt (b2n a) 4 64 (byte_lt a)) as [A1 A2]; [lia|].
    destruct (part_lt (b2n b) 16 16 (byte_lt b)) as [B1 B2]; [lia|].
    exists [b2n a / 4; b2n a mod 4 * 16 + b2n b / 16; b2n b mod 16 * 4], 2%nat, 1%nat. repeat split; try lia.
    + cbn [flat_map]. rewrite !app_nil_r. rewrite (byte_62 (b2n a) (byte_lt a)), (byte_44 (b2n b) (byte_lt b)).
      rewrite group_24 by lia. rewrite <- (N.add_0_r (b2n b mod 16 * 4)), group_42 by lia.
      rewrite <- !app_assoc. reflexivity.
    + repeat constructor; lia.
  - destruct IH as (g & z & p & E & F & Z & Hs & P & M).
    destruct (part_lt (b2n a) 4 64 (byte_lt a)) as [A1 A2]; [lia|].
    destruct (part_lt (b2n b) 16 16 (byte_lt b)) as [B1 B2]; [lia|].
    destruct (part_lt (b2n c) 64 4 (byte_lt c)) as [C1 C2]; [lia|].
    exists (b2n a / 4 :: b2n a mod 4 * 16 + b2n b / 16 :: b2n b mod 16 * 4 + b2n c / 64 :: b2n c mod 64 :: g), z, p.
    repeat split; try assumption.
    + cbn [flat_map]. rewrite <- E. rewrite (byte_62 (b2n a) (byte_lt a)), (byte_44 (b2n b) (byte_lt b)), (byte_26 (b2n c) (byte_lt c)).
      rewrite group_24, group_42 by lia. rewrite <- !app_assoc. reflexivity.
    + repeat (constructor; [lia|]). exact F.
    + cbn [b64_encode map app]. rewrite <- Hs. reflexivity.
    + cbn [b64_encode length]. replace (S (S (S (S (length (b64_encode r)))))) with (length (b64_encode r) + 1 * 4)%nat by lia.
      now rewrite Nat.mod_add.
Qed.

Lemma base64_unique : forall s t l, Base64Text s l -> Base64Text t l -> s = t.
Proof.
  intros s t l (g & z & p & E & F & Z & Hs & P & M) (g' & z' & p' & E' & F' & Z' & Hs' & P' & M').
  pose proof (f_equal (@length bool) E) as L. pose proof (f_equal (@length bool) E') as L'.
  rewrite app_length, repeat_length, (flat_bits_length byte b2n), (flat_bits_length N (fun x => x)) in L, L'.
  assert (z = z' /\ length g = length g') as [Ez El] by lia. subst z'.
  assert (Eg : g = g').
  { apply (flat_bits_inj 6); [exact F|exact F'|exact El|congruence]. }
  subst g'. rewrite Hs, Hs' in *. rewrite app_length, map_length, repeat_length in M, M'.
  f_equal. f_equal.
  pose proof (Nat.div_mod (length g + p) 4). pose proof (Nat.div_mod (length g + p') 4). lia.
Qed.

Lemma base64_is_encode : forall s l, Base64Text s l <-> s = b64_encode l.
Proof.
  intros s l. split; [|intros ->; apply encode_is_base64].
  intros H. exact (base64_unique _ _ _ H (encode_is_base64 l)).
Qed.

(** The texts that stand for bytes are exactly those accepted. *)
Lemma base64_decode_iff : forall s l, b64_decode s = Some l <-> Base64Text s l.
Proof.
  intros s l. rewrite base64_is_encode. split; [apply b64_canonical|intros ->; apply b64_roundtrip].
Qed.
