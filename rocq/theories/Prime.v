(** Fermat's little theorem, Pocklington's primality criterion and the primality of
    [2^255 - 19]. *)

From Coq Require Import ZArith Znumtheory List Lia Permutation.
Import ListNotations.
Local Open Scope Z_scope.

(** ** Powers modulo [n] *)

(** [a^e mod n] by squaring. *)
Fixpoint powm_pos (n a : Z) (e : positive) : Z :=
  match e with
  | xH => a mod n
  | xO e' => let x := powm_pos n a e' in (x * x) mod n
  | xI e' => let x := powm_pos n a e' in (((x * x) mod n) * a) mod n
  end.
Definition powm (n a e : Z) : Z :=
  match e with Z0 => 1 mod n | Zpos e' => powm_pos n a e' | Zneg _ => 0 end.

Lemma powm_pos_spec : forall n a e, n <> 0 -> powm_pos n a e = (a ^ Zpos e) mod n.
Proof.
  intros n a e Hn. induction e as [e IH|e IH|]; cbn [powm_pos].
  - rewrite IH.
    replace (Zpos e~1) with (Zpos e + Zpos e + 1) by lia.
    rewrite !Z.pow_add_r, Z.pow_1_r by lia.
    rewrite Z.mul_mod_idemp_l by assumption.
    rewrite <- (Z.mul_mod_idemp_l (_ * _) a), <- Z.mul_mod by assumption.
    now rewrite Z.mul_mod_idemp_l by assumption.
  - rewrite IH. replace (Zpos e~0) with (Zpos e + Zpos e) by lia.
    rewrite Z.pow_add_r by lia.
    now rewrite <- Z.mul_mod by assumption.
  - now rewrite Z.pow_1_r.
Qed.

Lemma powm_spec : forall n a e, n <> 0 -> 0 <= e -> powm n a e = (a ^ e) mod n.
Proof.
  intros n a [|e|e] Hn H; cbn [powm]; [reflexivity|now apply powm_pos_spec|lia].
Qed.

(** ** Fermat *)

Lemma mod_0_divide : forall a n, n <> 0 -> a mod n = 0 -> (n | a).
Proof. intros a n Hn H. now apply Z.mod_divide. Qed.

Lemma mod_eq_divide : forall a b n, n <> 0 -> a mod n = b mod n -> (n | a - b).
Proof.
  intros a b n Hn H. apply Z.mod_divide; [assumption|].
  rewrite Zminus_mod, H, Z.sub_diag. reflexivity.
Qed.

Lemma divide_mod_eq : forall a b n, n <> 0 -> (n | a - b) -> a mod n = b mod n.
Proof.
  intros a b n Hn [k Hk]. replace a with (b + k * n) by lia. apply Z.mod_add; assumption.
Qed.

Definition prodZ (l : list Z) : Z := fold_right Z.mul 1 l.

Lemma prodZ_perm : forall l l', Permutation l l' -> prodZ l = prodZ l'.
Proof.
  intros l l' H. induction H; unfold prodZ in *; cbn [fold_right]; [reflexivity|now rewrite IHPermutation|ring|congruence].
Qed.

(** 1, ..., p - 1 *)
Definition units (p : Z) : list Z := map (fun i => Z.of_nat i) (seq 1 (Z.to_nat (p - 1))).

Lemma units_in : forall p x, In x (units p) <-> 1 <= x < p.
Proof.
  intros p x. unfold units. rewrite in_map_iff. split.
  - intros (i & <- & H). apply in_seq in H. lia.
  - intros H. exists (Z.to_nat x). split; [lia|]. apply in_seq. lia.
Qed.

Lemma units_nodup : forall p, NoDup (units p).
Proof.
  intros p. unfold units. apply FinFun.Injective_map_NoDup; [intros a b; lia|apply seq_NoDup].
Qed.

Lemma nodup_map_inj : forall (f : Z -> Z) l,
  (forall x y, In x l -> In y l -> f x = f y -> x = y) -> NoDup l -> NoDup (map f l).
Proof.
  intros f l. induction l as [|a r IH]; intros H N; cbn; [constructor|].
  inversion N; subst. constructor.
  - rewrite in_map_iff. intros (y & E & Hy).
    assert (y = a) by (apply H; [now right|now left|assumption]). now subst y.
  - apply IH; [|assumption]. intros x y Hx Hy. apply H; now right.
Qed.

Lemma prodZ_units : forall p l, prime p -> (forall x, In x l -> 1 <= x < p) -> ~ (p | prodZ l).
Proof.
  intros p l Hp. induction l as [|x r IH]; cbn; intros H D.
  - apply Z.divide_1_r_nonneg in D; destruct Hp; lia.
  - apply prime_mult in D; [|assumption]. destruct D as [D|D].
    + specialize (H x (or_introl eq_refl)). apply Z.divide_pos_le in D; lia.
    + apply IH; auto.
Qed.

Lemma prodZ_map_mul : forall p a l, p <> 0 ->
  prodZ (map (fun i => (a * i) mod p) l) mod p = (a ^ Z.of_nat (length l) * prodZ l) mod p.
Proof.
  intros p a l Hp. induction l as [|x r IH].
  - reflexivity.
  - cbn [map prodZ fold_right length]. fold (prodZ r).
    fold (prodZ (map (fun i => (a * i) mod p) r)).
    rewrite Nat2Z.inj_succ, Z.pow_succ_r by lia.
    rewrite Z.mul_mod_idemp_l by assumption.
    rewrite Z.mul_mod, IH, <- Z.mul_mod by assumption.
    f_equal. ring.
Qed.

Theorem fermat : forall p a, prime p -> ~ (p | a) -> (a ^ (p - 1)) mod p = 1.
Proof.
  intros p a Hp Ha.
  assert (H1 : 1 < p) by (destruct Hp; assumption).
  assert (Hperm : Permutation (map (fun i => (a * i) mod p) (units p)) (units p)).
  { apply NoDup_Permutation_bis.
    - apply nodup_map_inj; [|apply units_nodup].
      intros x y Hx Hy E. apply units_in in Hx. apply units_in in Hy.
      apply mod_eq_divide in E; [|lia].
      replace (a * x - a * y) with (a * (x - y)) in E by ring.
      apply prime_mult in E; [|assumption]. destruct E as [E|E]; [contradiction|].
      destruct E as [k E]. assert (k = 0) by nia. lia.
    - rewrite map_length. lia.
    - intros y Hy. apply in_map_iff in Hy. destruct Hy as (x & <- & Hx).
      apply units_in in Hx. apply units_in.
      pose proof (Z.mod_pos_bound (a * x) p ltac:(lia)) as B.
      assert ((a * x) mod p <> 0); [|lia].
      intros E. apply mod_0_divide in E; [|lia]. apply prime_mult in E; [|assumption].
      destruct E as [E|E]; [contradiction|]. apply Z.divide_pos_le in E; lia. }
  apply prodZ_perm in Hperm.
  pose proof (prodZ_map_mul p a (units p) ltac:(lia)) as M. rewrite Hperm in M.
  assert (L : Z.of_nat (length (units p)) = p - 1).
  { unfold units. rewrite map_length, seq_length. lia. }
  rewrite L in M. symmetry in M. apply mod_eq_divide in M; [|lia].
  replace (a ^ (p - 1) * prodZ (units p) - prodZ (units p))
    with ((a ^ (p - 1) - 1) * prodZ (units p)) in M by ring.
  apply prime_mult in M; [|assumption]. destruct M as [M|M].
  - apply divide_mod_eq in M; [|lia]. rewrite M. apply Z.mod_small; lia.
  - exfalso. revert M. apply prodZ_units; [assumption|]. intros x Hx. now apply units_in.
Qed.

(** ** Pocklington *)

(** Powers with exponents [i] and [j] equal to 1 give the power with exponent [gcd i j]. *)
Lemma pow_mod_1 : forall n b i k, 1 < n -> 0 <= i -> 0 <= k ->
  (b ^ i) mod n = 1 -> (b ^ (i * k)) mod n = 1.
Proof.
  intros n b i k Hn Hi Hk H. rewrite Z.pow_mul_r by assumption.
  revert k Hk. apply natlike_ind.
  - apply Z.mod_small; lia.
  - intros k Hk IH. rewrite Z.pow_succ_r by assumption.
    rewrite Z.mul_mod, H, IH by lia. apply Z.mod_small; lia.
Qed.

Lemma pow_gcd_1 : forall n b i j, 1 < n -> 0 < i -> 0 < j ->
  (b ^ i) mod n = 1 -> (b ^ j) mod n = 1 -> (b ^ Z.gcd i j) mod n = 1.
Proof.
  intros n b i j Hn Hi Hj H1 H2.
  destruct (Z.gcd_bezout i j (Z.gcd i j) eq_refl) as (u & v & B).
  (* make both coefficients usable: gcd + (positive multiple of j) = positive multiple of i *)
  set (g := Z.gcd i j) in *.
  assert (Hg : 0 <= g) by apply Z.gcd_nonneg.
  set (m := Z.abs u + Z.abs v).
  assert (E : g + j * (m * i - v) = i * (u + m * j)) by lia.
  assert (Hm : 0 <= m * i - v) by (unfold m; nia).
  assert (Hm' : 0 <= u + m * j) by (unfold m; nia).
  pose proof (pow_mod_1 n b i (u + m * j) Hn ltac:(lia) Hm' H1) as P.
  rewrite <- E, Z.pow_add_r in P by nia.
  pose proof (pow_mod_1 n b j (m * i - v) Hn ltac:(lia) Hm H2) as Q.
  rewrite Z.mul_mod, Q, Z.mul_1_r, Z.mod_mod in P by lia. exact P.
Qed.

(** A prime [q] dividing [n - 1] divides [r - 1] for every prime divisor [r] of [n]. *)
Lemma pocklington_step : forall n a q r, 1 < n -> prime q -> (q | n - 1) ->
  (a ^ (n - 1)) mod n = 1 -> Z.gcd (a ^ ((n - 1) / q) - 1) n = 1 ->
  prime r -> (r | n) -> (q | r - 1).
Proof.
  intros n a q r Hn Hq [m Hm] H1 Hg Hr Hrn.
  assert (Hq1 : 1 < q) by (destruct Hq; assumption).
  assert (Hr1 : 1 < r) by (destruct Hr; assumption).
  assert (Hm0 : 0 < m) by nia.
  assert (Hdiv : (n - 1) / q = m) by (rewrite Hm; apply Z.div_mul; lia).
  rewrite Hdiv in Hg.
  assert (Hmr : forall x, x mod n = 1 -> x mod r = 1).
  { intros x Hx. replace 1 with (1 mod n) in Hx by (apply Z.mod_small; lia).
    apply mod_eq_divide in Hx; [|lia].
    assert (D : (r | x - 1)) by (eapply Z.divide_trans; eassumption).
    apply divide_mod_eq in D; [|lia]. rewrite D. apply Z.mod_small; lia. }
  assert (Ha : ~ (r | a)).
  { intros D. apply Hmr in H1.
    assert (D2 : (r | a ^ (n - 1))).
    { replace (n - 1) with (1 + (n - 2)) by lia. rewrite Z.pow_add_r, Z.pow_1_r by lia.
      now apply Z.divide_mul_l. }
    apply Z.mod_divide in D2; [|lia]. lia. }
  pose proof (fermat r a Hr Ha) as F.
  assert (Hn1 : (a ^ (n - 1)) mod r = 1) by now apply Hmr.
  pose proof (pow_gcd_1 r a (n - 1) (r - 1) Hr1 ltac:(lia) ltac:(lia) Hn1 F) as G.
  set (g := Z.gcd (n - 1) (r - 1)) in *.
  assert (Gn : (g | n - 1)) by apply Z.gcd_divide_l.
  assert (Gr : (g | r - 1)) by apply Z.gcd_divide_r.
  destruct (Zdivide_dec q g) as [D|D]; [eapply Z.divide_trans; eassumption|].
  exfalso.
  (* then g divides m, so a^m = 1 mod r *)
  assert (Gm : (g | m)).
  { rewrite Hm, Z.mul_comm in Gn. apply Gauss with (b := q); [assumption|].
    apply rel_prime_sym, prime_rel_prime; assumption. }
  destruct Gm as [k Hk].
  assert (Hg0 : 0 <= g) by apply Z.gcd_nonneg.
  pose proof (pow_mod_1 r a g k Hr1 Hg0 ltac:(nia) G) as P.
  rewrite Z.mul_comm, <- Hk in P.
  replace 1 with (1 mod r) in P by (apply Z.mod_small; lia).
  apply mod_eq_divide in P; [|lia].
  assert (R : (r | 1)).
  { rewrite <- Hg. apply Z.gcd_greatest; assumption. }
  apply Z.divide_1_r_nonneg in R; lia.
Qed.

Lemma prime_divisor : forall n, 1 < n -> exists r, prime r /\ (r | n).
Proof.
  intros n H. assert (H0 : 0 <= n) by lia. revert H. pattern n.
  apply Z_lt_induction; [|assumption]. clear n H0. intros n IH H.
  destruct (prime_dec n) as [P|P].
  - exists n. split; [assumption|apply Z.divide_refl].
  - apply not_prime_divide in P; [|assumption]. destruct P as (m & Hm & D).
    destruct (IH m ltac:(lia) ltac:(lia)) as (r & Pr & Dr).
    exists r. split; [assumption|]. eapply Z.divide_trans; eassumption.
Qed.

Theorem pocklington : forall n F, 1 < n -> 0 < F -> n < F * F ->
  (forall r, prime r -> (r | n) -> (F | r - 1)) -> prime n.
Proof.
  intros n F Hn HF Hsq H.
  destruct (prime_divisor n Hn) as (r & Pr & m & Hm).
  assert (Hr : 1 < r) by (destruct Pr; assumption).
  assert (Hm0 : 0 < m) by nia.
  destruct (Z.eq_dec m 1) as [->|Hm1].
  - now replace n with r by lia.
  - exfalso. destruct (prime_divisor m ltac:(lia)) as (r' & Pr' & D').
    assert (Hr' : 1 < r') by (destruct Pr'; assumption).
    assert (D1 : (F | r - 1)) by (apply H; [assumption|exists m; assumption]).
    assert (D2 : (F | r' - 1)).
    { apply H; [assumption|]. rewrite Hm. now apply Z.divide_mul_l. }
    apply Z.divide_pos_le in D1; [|lia]. apply Z.divide_pos_le in D2; [|lia].
    apply Z.divide_pos_le in D'; [|lia]. nia.
Qed.

Definition pock_check (n a q : Z) : bool :=
  (1 <? n) && (1 <? q) && ((n - 1) mod q =? 0) && (powm n a (n - 1) =? 1) &&
  (Z.gcd (powm n a ((n - 1) / q) - 1) n =? 1).

Lemma pock_check_ok : forall n a q r, pock_check n a q = true -> prime q ->
  prime r -> (r | n) -> (q | r - 1).
Proof.
  intros n a q r H Hq. unfold pock_check in H. rewrite !Bool.andb_true_iff in H.
  destruct H as ((((H1 & H2) & H3) & H4) & H5).
  apply Z.ltb_lt in H1. apply Z.ltb_lt in H2. apply Z.eqb_eq in H3, H4, H5.
  rewrite powm_spec in H4 by lia. rewrite powm_spec in H5 by (try lia; apply Z.div_pos; lia).
  apply pocklington_step with (a := a); try assumption.
  - apply mod_0_divide; [lia|assumption].
  - etransitivity; [|exact H5]. set (x := a ^ ((n - 1) / q)).
    rewrite Z.gcd_comm, (Z.gcd_comm (x mod n - 1)).
    rewrite <- Z.gcd_mod by lia. rewrite <- (Z.gcd_mod (x mod n - 1)) by lia.
    rewrite Zminus_mod_idemp_l. reflexivity.
Qed.

Lemma pocklington1 : forall n a q, pock_check n a q = true -> prime q -> n < q * q -> prime n.
Proof.
  intros n a q H Hq Hsq. assert (Hq1 : 1 < q) by (destruct Hq; assumption).
  assert (1 < n) by (unfold pock_check in H; destruct (1 <? n) eqn:E; [lia|discriminate]).
  apply pocklington with (F := q); try lia. intros r. apply pock_check_ok with (a := a); assumption.
Qed.

Lemma pocklington2 : forall n a q q', pock_check n a q = true -> pock_check n a q' = true ->
  prime q -> prime q' -> q <> q' -> n < (q * q') * (q * q') -> prime n.
Proof.
  intros n a q q' H H' Hq Hq' Hne Hsq.
  assert (Hq1 : 1 < q) by (destruct Hq; assumption).
  assert (Hq2 : 1 < q') by (destruct Hq'; assumption).
  assert (1 < n) by (unfold pock_check in H; destruct (1 <? n) eqn:E; [lia|discriminate]).
  apply pocklington with (F := q * q'); try nia.
  intros r Pr Dr.
  pose proof (pock_check_ok n a q r H Hq Pr Dr) as [k Hk].
  pose proof (pock_check_ok n a q' r H' Hq' Pr Dr) as D2.
  rewrite Hk in *. rewrite Z.mul_comm. apply Z.mul_divide_mono_r.
  rewrite Z.mul_comm in D2. apply Gauss with (b := q); [assumption|].
  apply prime_rel_prime; [assumption|]. intros D.
  apply prime_div_prime in D; [now symmetry in D|assumption|assumption].
Qed.

Definition small_prime (n : Z) : bool :=
  (1 <? n) && forallb (fun i => negb (n mod (Z.of_nat i + 2) =? 0)) (seq 0 (Z.to_nat (n - 2))).

Lemma small_prime_ok : forall n, small_prime n = true -> prime n.
Proof.
  intros n H. unfold small_prime in H. apply Bool.andb_true_iff in H. destruct H as (H1 & H2).
  apply Z.ltb_lt in H1. apply prime_alt. split; [assumption|].
  intros m Hm D. rewrite forallb_forall in H2. specialize (H2 (Z.to_nat (m - 2))).
  rewrite Bool.negb_true_iff, Z.eqb_neq in H2. apply H2.
  - apply in_seq. lia.
  - rewrite Z2Nat.id by lia. replace (m - 2 + 2) with m by lia. apply Z.mod_divide; [lia|assumption].
Qed.

(** ** [2^255 - 19] *)

Ltac small := apply small_prime_ok; vm_compute; reflexivity.
Ltac pock1 q := apply (pocklington1 _ 2 q); [vm_compute; reflexivity| |reflexivity].
Ltac pock2 q q' :=
  apply (pocklington2 _ 2 q q'); [vm_compute; reflexivity|vm_compute; reflexivity| | |lia|reflexivity].

Lemma prime_8574133 : prime 8574133.
Proof. pock2 991 103; small. Qed.
Lemma prime_1919519569386763 : prime 1919519569386763.
Proof. pock2 8574133 127; [apply prime_8574133|small]. Qed.
Lemma prime_569003 : prime 569003.
Proof. pock2 419 97; small. Qed.
Lemma prime_2773320623 : prime 2773320623.
Proof. pock1 569003. apply prime_569003. Qed.
Lemma prime_72106336199 : prime 72106336199.
Proof. pock1 2773320623. apply prime_2773320623. Qed.
Lemma prime_75445702479781427272750846543864801 : prime 75445702479781427272750846543864801.
Proof.
  pock2 1919519569386763 72106336199; [apply prime_1919519569386763|apply prime_72106336199].
Qed.
Lemma prime_430751 : prime 430751.
Proof. pock1 1723. small. Qed.
Lemma prime_31757755568855353 : prime 31757755568855353.
Proof. pock2 430751 4153; [apply prime_430751|small]. Qed.
Lemma prime_q235 :
  prime 74058212732561358302231226437062788676166966415465897661863160754340907.
Proof.
  pock2 75445702479781427272750846543864801 31757755568855353;
    [apply prime_75445702479781427272750846543864801|apply prime_31757755568855353].
Qed.

Theorem prime_25519 : prime (2 ^ 255 - 19).
Proof.
  pock1 74058212732561358302231226437062788676166966415465897661863160754340907.
  apply prime_q235.
Qed.

(** ** The order of the Ed25519 base point *)

Lemma prime_1224481 : prime 1224481.
Proof. pock1 2551. small. Qed.
Lemma prime_531581 : prime 531581.
Proof. pock1 3797. small. Qed.
Lemma prime_1257559732178653 : prime 1257559732178653.
Proof. pock2 1224481 531581; [apply prime_1224481|apply prime_531581]. Qed.
Lemma prime_4434155615661930479 : prime 4434155615661930479.
Proof. pock1 1257559732178653. apply prime_1257559732178653. Qed.
Lemma prime_172054593956031949258510691 : prime 172054593956031949258510691.
Proof. pock1 4434155615661930479. apply prime_4434155615661930479. Qed.
Lemma prime_q134 : prime 19757330305831588566944191468367130476339.
Proof. pock1 172054593956031949258510691. apply prime_172054593956031949258510691. Qed.
Lemma prime_q138 : prime 276602624281642239937218680557139826668747.
Proof. pock1 19757330305831588566944191468367130476339. apply prime_q134. Qed.

Theorem prime_ed_L : prime (2 ^ 252 + 27742317777372353535851937790883648493).
Proof. pock1 276602624281642239937218680557139826668747. apply prime_q138. Qed.
