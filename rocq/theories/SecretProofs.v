(** Lemmas for C66. *)

From Verif Require Import Base Io SpecText Model_encoding Blake2b Model_common Model_currency Model_text Model_ed25519
  Model_signing Model_seed Model_secret CurrencyProofs TextProofs SpecSecret.
Local Open Scope N_scope.

(** ** Debug *)

Lemma digits_sep : forall c, ~ digit c -> forall d d' r r', Forall digit d -> Forall digit d' ->
  d ++ c :: r = d' ++ c :: r' -> d = d' /\ r = r'.
Proof.
  intros c N. induction d as [|e d IH]; intros [|e' d'] r r' F F' E; cbn [app] in E.
  - split; congruence.
  - exfalso. apply N. inversion F'; subst. congruence.
  - exfalso. apply N. inversion F; subst. congruence.
  - inversion F; inversion F'; subst. destruct (IH d' r r') as [-> ->]; try assumption; [congruence|].
    split; congruence.
Qed.

Lemma dec_byte_split : forall c, ~ digit c -> forall a b r r',
  dec_text (b2n a) ++ c :: r = dec_text (b2n b) ++ c :: r' -> a = b /\ r = r'.
Proof.
  intros c N a b r r' E. destruct (dec_text_spec (b2n a)) as ([_ F] & V & _). destruct (dec_text_spec (b2n b)) as ([_ F'] & V' & _).
  apply (digits_sep c N) in E as [E ->]; try assumption. split; [|reflexivity].
  apply (f_equal dec_value) in E. rewrite V, V' in E. now apply b2n_inj.
Qed.

Lemma not_digit : ~ digit ","%byte /\ ~ digit "]"%byte.
Proof. split; intros [H1 H2]; vm_compute in H1, H2; (now apply H1) || now apply H2. Qed.

Lemma debug_entries_inj : forall l l' r r', length l = length l' ->
  debug_entries l ++ "]"%byte :: r = debug_entries l' ++ "]"%byte :: r' -> l = l'.
Proof.
  induction l as [|a l IH]; intros [|b l'] r r' L E; try discriminate; [reflexivity|].
  destruct l as [|a2 l], l' as [|b2 l']; try discriminate.
  - cbn [debug_entries] in E. apply dec_byte_split in E as [-> _]; [reflexivity|apply not_digit].
  - change (debug_entries (a :: a2 :: l)) with (dec_text (b2n a) ++ ascii ", " ++ debug_entries (a2 :: l)) in E.
    change (debug_entries (b :: b2 :: l')) with (dec_text (b2n b) ++ ascii ", " ++ debug_entries (b2 :: l')) in E.
    rewrite <- !app_assoc in E. change (ascii ", ") with [","; " "]%byte in E. cbn [app] in E.
    apply dec_byte_split in E as [-> E]; [|apply not_digit]. f_equal.
    apply (IH (b2 :: l') r r'); [now apply eq_add_S|]. congruence.
Qed.

Lemma pretty_entries_inj : forall l l' r r', length l = length l' ->
  pretty_entries l ++ r = pretty_entries l' ++ r' -> l = l'.
Proof.
  induction l as [|a l IH]; intros [|b l'] r r' L E; try discriminate; [reflexivity|].
  unfold pretty_entries in E. cbn [map concat] in E. rewrite <- !app_assoc in E. apply app_inv_head in E.
  cbn [app] in E. apply dec_byte_split in E as [-> E]; [|apply not_digit]. f_equal.
  apply (IH l' r r'); [now apply eq_add_S|]. unfold pretty_entries. congruence.
Qed.

Lemma debug_tells : forall k k', private_key_debug k = private_key_debug k' -> k = k'.
Proof.
  intros k k' E. unfold private_key_debug in E. apply app_inv_head in E. change (ascii "])") with ("]"%byte :: [")"%byte]) in E.
  apply debug_entries_inj in E; [now apply arr_eq|now rewrite !arr_len].
Qed.

Lemma pretty_tells : forall k k', private_key_debug_pretty k = private_key_debug_pretty k' -> k = k'.
Proof.
  intros k k' E. unfold private_key_debug_pretty in E. do 4 apply app_inv_head in E.
  apply pretty_entries_inj in E; [now apply arr_eq|now rewrite !arr_len].
Qed.

Lemma debug_discloses : ~ (forall k k', sk_public_key k = sk_public_key k' -> private_key_debug k = private_key_debug k').
Proof.
  intros H. specialize (H (arr_of 64 (repeat "000"%byte 64)) (arr_of 64 ("001"%byte :: repeat "000"%byte 63))).
  assert (E : sk_public_key (arr_of 64 (repeat "000"%byte 64)) = sk_public_key (arr_of 64 ("001"%byte :: repeat "000"%byte 63))).
  { apply arr_eq. vm_compute. reflexivity. }
  apply H in E. apply debug_tells in E. apply (f_equal aval) in E. vm_compute in E. discriminate.
Qed.

(** ** Storage *)

Lemma zeroed_wiped : forall l, Wiped (zeroed l).
Proof. intros l. unfold Wiped, zeroed. apply Forall_forall. intros x H. apply in_map_iff in H as (y & <- & _). reflexivity. Qed.

Lemma live_at_nth : forall m i b, live_at m i = Some b -> nth_error m i = Some (Storage b true).
Proof.
  intros m i b H. unfold live_at in H. destruct (nth_error m i) as [[c []]|]; cbn in H; congruence.
Qed.

Lemma set_at_spec : forall m i s, (i < length m)%nat ->
  nth_error (set_at m i s) i = Some s /\ (forall j, j <> i -> nth_error (set_at m i s) j = nth_error m j) /\
  length (set_at m i s) = length m.
Proof.
  induction m as [|a m IH]; intros i s H; cbn in H; [lia|]. destruct i as [|i]; cbn [set_at].
  - repeat split. intros [|j] H'; [congruence|reflexivity].
  - destruct (IH i s ltac:(lia)) as (H1 & H2 & H3). repeat split; cbn; try assumption; try lia.
    intros [|j] H'; [reflexivity|]. apply H2. congruence.
Qed.

Lemma drop_wipes : forall m i m', act m (Drop i) = Some m' ->
  length m' = length m /\
  (exists b, nth_error m i = Some (Storage b true) /\ exists z, nth_error m' i = Some (Storage z false) /\ Wiped z /\ length z = length b) /\
  forall j, j <> i -> nth_error m' j = nth_error m j.
Proof.
  intros m i m' H. cbn [act] in H. destruct (live_at m i) as [b|] eqn:E; [|discriminate]. injection H as <-.
  apply live_at_nth in E. assert (L : (i < length m)%nat) by (apply nth_error_Some; congruence).
  destruct (set_at_spec m i (Storage (zeroed b) false) L) as (H1 & H2 & H3). split; [exact H3|]. split; [|exact H2].
  exists b. split; [exact E|]. exists (zeroed b). split; [exact H1|]. split; [apply zeroed_wiped|]. unfold zeroed. now rewrite map_length.
Qed.

Lemma forall_set : forall (P : storage -> Prop) m i s, Forall P m -> P s -> Forall P (set_at m i s).
Proof.
  intros P. induction m as [|a m IH]; intros i s F H; [constructor|]. inversion F; subst.
  destruct i; cbn [set_at]; constructor; auto.
Qed.

Lemma plain_invariant : forall l m m', Forall plain_action l -> Forall (fun s => st_live s = true \/ Wiped (st_bytes s)) m ->
  acts m l = Some m' -> Forall (fun s => st_live s = true \/ Wiped (st_bytes s)) m'.
Proof.
  induction l as [|a l IH]; intros m m' P F H; cbn [acts] in H; [injection H as <-; exact F|].
  inversion P as [|? ? P1 P2]; subst. destruct (act m a) as [n|] eqn:E; [|discriminate]. apply (IH n m'); try assumption.
  destruct a; cbn [act plain_action] in *; try contradiction.
  - injection E as <-. apply Forall_app. split; [exact F|]. apply Forall_cons; [now left|apply Forall_nil].
  - injection E as <-. apply Forall_app. split; [exact F|]. apply Forall_cons; [now left|apply Forall_nil].
  - destruct (live_at m i) as [b|]; [|discriminate]. destruct (Nat.eqb (length b) 64); [|discriminate].
    injection E as <-. apply Forall_app. split; [exact F|]. apply Forall_cons; [now left|apply Forall_nil].
  - destruct (live_at m i) as [b|]; [|discriminate]. injection E as <-. apply forall_set; [exact F|]. right. apply zeroed_wiped.
Qed.

Lemma plain_wiped : forall l m, Forall plain_action l -> acts [] l = Some m ->
  Forall (fun s => st_live s = false) m -> Forall (fun s => Wiped (st_bytes s)) m.
Proof.
  intros l m P H D. apply plain_invariant in H; [|exact P|constructor].
  rewrite Forall_forall in *. intros s Hs. destruct (H s Hs) as [E|W]; [|exact W]. rewrite (D s Hs) in E. discriminate.
Qed.

(** How many pieces of storage are no value's and not wiped. *)
Lemma left_app : forall m n, left_over (m ++ n) = (left_over m + left_over n)%nat.
Proof. intros m n. unfold left_over. now rewrite filter_app, app_length. Qed.

Definition one (s : storage) : nat := left_over [s].

Lemma left_cons : forall s m, left_over (s :: m) = (one s + left_over m)%nat.
Proof. intros s m. apply (left_app [s] m). Qed.

Lemma one_live : forall b, one (Storage b true) = 0%nat.
Proof. reflexivity. Qed.

Lemma one_le : forall s, (one s <= 1)%nat.
Proof. intros s. unfold one, left_over. cbn [filter]. destruct (_ && _)%bool; cbn; lia. Qed.

Lemma one_wiped : forall b, one (Storage (zeroed b) false) = 0%nat.
Proof.
  intros b. unfold one, left_over. cbn [filter st_live st_bytes negb andb]. unfold is_wiped.
  replace (forallb _ (zeroed b)) with true; [reflexivity|]. symmetry. apply forallb_forall. intros x H.
  pose proof (zeroed_wiped b) as W. unfold Wiped in W. rewrite Forall_forall in W. rewrite (W x H). reflexivity.
Qed.

Lemma left_set : forall m i b s, nth_error m i = Some (Storage b true) -> left_over (set_at m i s) = (left_over m + one s)%nat.
Proof.
  induction m as [|a m IH]; intros [|i] b s H; try discriminate; cbn [nth_error set_at] in *.
  - injection H as ->. rewrite !left_cons, one_live. lia.
  - rewrite !left_cons, (IH i b s H). lia.
Qed.

Lemma left_nil : left_over [] = 0%nat.
Proof. reflexivity. Qed.

Lemma some_inj : forall (x y : memory), Some x = Some y -> x = y.
Proof. intros x y H. congruence. Qed.

Lemma left_step : forall m a m', act m a = Some m' -> (left_over m' <= left_over m + leaves a)%nat.
Proof.
  intros m a m' H. destruct a as [s|k|i|i|i index|i|i]; unfold act in H; cbn [leaves].
  - apply some_inj in H as <-. rewrite left_app, left_cons, one_live, left_nil. lia.
  - apply some_inj in H as <-. rewrite left_app, left_cons, one_live, left_nil. lia.
  - destruct (live_at m i) as [b|]; [|discriminate]. destruct (Nat.eqb (length b) 64); [|discriminate].
    apply some_inj in H as <-. rewrite left_app, left_cons, one_live, left_nil. lia.
  - destruct (live_at m i) as [b|] eqn:E; [|discriminate]. apply live_at_nth in E.
    apply some_inj in H as <-. rewrite left_app, left_cons, one_live, left_nil, (left_set _ _ _ _ E).
    pose proof (one_le (Storage b false)). lia.
  - destruct (live_at m i) as [b|]; [|discriminate]. destruct (Nat.eqb (length b) 16); [|discriminate].
    cbv zeta in H. revert H. generalize (hash b). intros e. generalize (hash (aval e ++ le_bytes 8 (uval index))). intros f.
    generalize (seed_private_key (arr_of 16 b) index). intros k H. apply some_inj in H as <-.
    rewrite left_app, !left_cons, one_live, left_nil. pose proof (one_le (Storage (aval e) false)). pose proof (one_le (Storage (aval f) false)). lia.
  - destruct (live_at m i) as [b|]; [|discriminate]. destruct (Nat.eqb (length b) 64); [|discriminate].
    apply some_inj in H as <-. rewrite left_app, left_cons, left_nil. pose proof (one_le (Storage (firstn 32 b) false)). lia.
  - destruct (live_at m i) as [b|] eqn:E; [|discriminate]. apply live_at_nth in E.
    apply some_inj in H as <-. rewrite (left_set _ _ _ _ E), one_wiped. lia.
Qed.

Lemma left_bound : forall l m m', acts m l = Some m' -> (left_over m' <= left_over m + list_sum (map leaves l))%nat.
Proof.
  induction l as [|a l IH]; intros m m' H; cbn [acts] in H.
  - injection H as <-. cbn. lia.
  - destruct (act m a) as [n|] eqn:E; [|discriminate]. apply IH in H. apply left_step in E. cbn [map list_sum fold_right]. 
    change (fold_right Nat.add 0%nat) with list_sum. lia.
Qed.

Lemma plain_left : forall l m, acts [] l = Some m -> (left_over m <= list_sum (map leaves l))%nat.
Proof. intros l m H. apply left_bound in H. rewrite left_nil in H. exact H. Qed.

(** ** What moving, signing and deriving leave *)

Definition key_7 : private_key := arr_of 64 (repeat "007"%byte 64).
Definition seed_7 : seed := arr_of 16 (repeat "007"%byte 16).

Lemma not_wiped : forall l b, nth_error l 0 = Some b -> b <> "000"%byte -> ~ Wiped l.
Proof. intros [|c l] b H N W; [discriminate|]. injection H as ->. inversion W; subst. congruence. Qed.

Lemma moved_stays : ~ (forall l m, Forall (fun a => plain_action a \/ exists i, a = Move i) l -> acts [] l = Some m ->
  all_dropped m -> Forall (fun s => Wiped (st_bytes s)) m).
Proof.
  intros H. specialize (H [HoldKey key_7; Move 0; Drop 1] [Storage (aval key_7) false; Storage (zeroed (aval key_7)) false]).
  assert (W : Forall (fun s => Wiped (st_bytes s)) [Storage (aval key_7) false; Storage (zeroed (aval key_7)) false]).
  { apply H; [|vm_compute; reflexivity|repeat constructor].
    apply Forall_cons; [left; exact I|]. apply Forall_cons; [right; now exists 0%nat|]. apply Forall_cons; [left; exact I|]. apply Forall_nil. }
  inversion W as [|? ? W1 _]; subst. revert W1. apply (not_wiped _ "007"%byte); [vm_compute; reflexivity|discriminate].
Qed.

Lemma signed_stays : ~ (forall l m, Forall (fun a => plain_action a \/ exists i, a = Sign i) l -> acts [] l = Some m ->
  all_dropped m -> Forall (fun s => Wiped (st_bytes s)) m).
Proof.
  intros H. specialize (H [HoldKey key_7; Sign 0; Drop 0] [Storage (zeroed (aval key_7)) false; Storage (firstn 32 (aval key_7)) false]).
  assert (W : Forall (fun s => Wiped (st_bytes s)) [Storage (zeroed (aval key_7)) false; Storage (firstn 32 (aval key_7)) false]).
  { apply H; [|vm_compute; reflexivity|repeat constructor].
    apply Forall_cons; [left; exact I|]. apply Forall_cons; [right; now exists 0%nat|]. apply Forall_cons; [left; exact I|]. apply Forall_nil. }
  inversion W as [|? ? _ W1]; subst. inversion W1 as [|? ? W2 _]; subst. revert W2.
  apply (not_wiped _ "007"%byte); [vm_compute; reflexivity|discriminate].
Qed.

(** The secret half that signing leaves is enough to sign. *)
Lemma signing_leaves_key : forall k, exists m b, acts [] [HoldKey k; Sign 0; Drop 0] = Some m /\ all_dropped m /\
  In (Storage b false) m /\ forall h, sign_hash (from_seed (arr_of 32 b)) h = sign_hash k h.
Proof.
  intros k. exists [Storage (zeroed (aval k)) false; Storage (firstn 32 (aval k)) false], (firstn 32 (aval k)).
  split; [|split; [|split]].
  - cbn [acts act app live_at nth_error st_live st_bytes]. rewrite arr_len. reflexivity.
  - apply Forall_cons; [reflexivity|]. apply Forall_cons; [reflexivity|]. apply Forall_nil.
  - right. left. reflexivity.
  - intros h. unfold sign_hash. f_equal. apply arr_eq. f_equal. f_equal.
    set (w := arr_of 32 (firstn 32 (aval k))).
    assert (A : aval w = firstn 32 (aval k)) by (apply arr_of_aval; rewrite firstn_length, arr_len; reflexivity).
    rewrite <- A. unfold from_seed, keypair_bytes. rewrite arr_of_aval by now rewrite app_length, !arr_len.
    rewrite firstn_app, arr_len, Nat.sub_diag, firstn_O, app_nil_r. apply firstn_all2. now rewrite arr_len.
Qed.

(** What deriving a key leaves is enough to make the key again. *)
Lemma deriving_leaves_key : forall s index, exists m b,
  acts [] [HoldSeed s; Derive 0 index; Drop 0; Drop 3] = Some m /\ all_dropped m /\
  In (Storage (aval (hash (aval s))) false) m /\ In (Storage b false) m /\ from_seed (arr_of 32 b) = seed_private_key s index.
Proof.
  intros s index.
  set (e := hash (aval s)). set (f := hash (aval e ++ le_bytes 8 (uval index))).
  exists [Storage (zeroed (aval s)) false; Storage (aval e) false; Storage (aval f) false; Storage (zeroed (aval (seed_private_key s index))) false], (aval f).
  split; [|split; [|split; [|split]]].
  - cbn [acts act app live_at nth_error st_live st_bytes]. rewrite arr_len. cbn [Nat.eqb].
    assert (S : arr_of 16 (aval s) = s) by (apply arr_eq, arr_of_aval, arr_len).
    fold e. fold f. rewrite S. cbn [acts act app live_at nth_error st_live st_bytes set_at]. reflexivity.
  - repeat (apply Forall_cons; [reflexivity|]). apply Forall_nil.
  - right. left. reflexivity.
  - right. right. left. reflexivity.
  - unfold seed_private_key, sk_from_hash. now rewrite arr_of_id.
Qed.

Lemma derived_stays : ~ (forall l m, Forall (fun a => plain_action a \/ exists i index, a = Derive i index) l -> acts [] l = Some m ->
  all_dropped m -> Forall (fun s => Wiped (st_bytes s)) m).
Proof.
  intros H. destruct (deriving_leaves_key seed_7 (uwrap 64 0)) as (m & b & E & D & He & _).
  assert (W : Forall (fun s => Wiped (st_bytes s)) m).
  { apply (H [HoldSeed seed_7; Derive 0 (uwrap 64 0); Drop 0; Drop 3]); [|exact E|exact D].
    apply Forall_cons; [left; exact I|]. apply Forall_cons; [right; do 2 eexists; reflexivity|].
    apply Forall_cons; [left; exact I|]. apply Forall_cons; [left; exact I|]. apply Forall_nil. }
  rewrite Forall_forall in W. apply W in He. cbn [st_bytes] in He. revert He.
  destruct (nth_error (aval (hash (aval seed_7))) 0) as [c|] eqn:C; [|vm_compute in C; discriminate].
  apply (not_wiped _ c C). vm_compute in C. intros ->. discriminate.
Qed.

(** ** The texts *)

Lemma in_decimal : forall b, InDecimal b (dec_text (b2n b)).
Proof.
  intros b. destruct (dec_text_spec (b2n b)) as (D & V & Z & O). split; [exact D|]. split; [exact V|].
  destruct (N.eq_dec (b2n b) 0) as [E|E]; [left; now apply O|right].
  destruct (dec_text (b2n b)) as [|c r] eqn:T; [discriminate|]. cbn [hd]. now apply (Z E c r).
Qed.

Lemma entries_separated : forall l, debug_entries l = separated (ascii ", ") (map (fun b => dec_text (b2n b)) l).
Proof.
  induction l as [|b [|c l] IH]; [reflexivity|reflexivity|]. cbn [debug_entries map separated] in *. now rewrite IH.
Qed.

Lemma separated_cons : forall sep t r, r <> [] -> separated sep (t :: r) = t ++ sep ++ separated sep r.
Proof. intros sep t [|x r] H; [now destruct H|reflexivity]. Qed.

Lemma pretty_separated : forall l r, r <> [] ->
  separated [x0a] (map (fun d => ascii "        " ++ d ++ ascii ",") (map (fun b => dec_text (b2n b)) l) ++ r) =
  pretty_entries l ++ separated [x0a] r.
Proof.
  intros l r H. unfold pretty_entries. induction l as [|b l IH]; [reflexivity|]. cbn [map app concat].
  rewrite separated_cons by (destruct l; [exact H|discriminate]). rewrite IH, <- !app_assoc. reflexivity.
Qed.

Lemma shown : forall k, exists ds, Forall2 InDecimal (aval k) ds /\
  private_key_debug k = one_line ds /\ private_key_debug_pretty k = many_lines ds.
Proof.
  intros k. exists (map (fun b => dec_text (b2n b)) (aval k)). split; [|split].
  - induction (aval k); constructor; [apply in_decimal|assumption].
  - unfold private_key_debug, one_line. now rewrite entries_separated.
  - unfold private_key_debug_pretty, many_lines. cbn [app]. rewrite !separated_cons by (try discriminate; destruct (aval k); discriminate).
    rewrite pretty_separated by discriminate. reflexivity.
Qed.
