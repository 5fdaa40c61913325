(** SHA-256 and SHA-512 (FIPS 180-4), as the [sha2] and [bitcoin_hashes] crates compute them. The
    crates are dependencies, not part of the repository; the executable versions let the model
    compute real signatures and recovery phrases, checked against the repository's vectors. *)

From Verif Require Import Base.
Local Open Scope N_scope.

(** words of [8 * wb] bits, most significant byte first *)
Definition wmask (bits : N) (n : N) : N := N.land n (N.ones bits).
Definition wadd (bits a b : N) : N := wmask bits (a + b).
Definition wror (bits x r : N) : N := N.lor (N.shiftr x r) (wmask bits (N.shiftl x (bits - r))).
Definition wnot (bits x : N) : N := N.lxor x (N.ones bits).

Record sha_params : Type := {
  sh_bits : N;                 (** bits of a word *)
  sh_bytes : nat;              (** bytes of a word *)
  sh_k : list N;               (** the round constants *)
  sh_S0 : N * N * N;           (** rotations of [Σ0] *)
  sh_S1 : N * N * N;
  sh_s0 : N * N * N;           (** two rotations and a shift of [σ0] *)
  sh_s1 : N * N * N }.

Section Sha.
  Variable P : sha_params.
  Let b := sh_bits P.

  Definition Sigma (r : N * N * N) (x : N) : N :=
    let '(r1, r2, r3) := r in N.lxor (wror b x r1) (N.lxor (wror b x r2) (wror b x r3)).
  Definition sigma_s (r : N * N * N) (x : N) : N :=
    let '(r1, r2, r3) := r in N.lxor (wror b x r1) (N.lxor (wror b x r2) (N.shiftr x r3)).

  Definition Ch (x y z : N) : N := N.lxor (N.land x y) (N.land (wnot b x) z).
  Definition Maj (x y z : N) : N :=
    N.lxor (N.land x y) (N.lxor (N.land x z) (N.land y z)).

  Fixpoint be_words (k : nat) (l : bytes) : list N :=
    match k with
    | O => []
    | S k' => from_be (firstn (sh_bytes P) l) :: be_words k' (skipn (sh_bytes P) l)
    end.

  (** the message schedule: [w] holds the last sixteen words, oldest first *)
  Definition next_w (w : list N) : N :=
    wadd b (wadd b (sigma_s (sh_s1 P) (nth 14 w 0)) (nth 9 w 0))
           (wadd b (sigma_s (sh_s0 P) (nth 1 w 0)) (nth 0 w 0)).

  Fixpoint schedule (ks : list N) (w : list N) (st : N * N * N * N * N * N * N * N)
    : N * N * N * N * N * N * N * N :=
    match ks with
    | [] => st
    | kt :: ks' =>
      let '(a, b', c, d, e, f, g, h) := st in
      let wt := nth 0 w 0 in
      let t1 := wadd b (wadd b (wadd b h (Sigma (sh_S1 P) e)) (wadd b (Ch e f g) kt)) wt in
      let t2 := wadd b (Sigma (sh_S0 P) a) (Maj a b' c) in
      schedule ks' (tl w ++ [next_w w]) (wadd b t1 t2, a, b', c, wadd b d t1, e, f, g)
    end.

  Definition sha_compress (h : list N) (block : bytes) : list N :=
    let at_ i := nth i h 0 in
    let '(a, b', c, d, e, f, g, hh) :=
      schedule (sh_k P) (be_words 16 block)
        (at_ 0%nat, at_ 1%nat, at_ 2%nat, at_ 3%nat, at_ 4%nat, at_ 5%nat, at_ 6%nat, at_ 7%nat) in
    [wadd b (at_ 0%nat) a; wadd b (at_ 1%nat) b'; wadd b (at_ 2%nat) c; wadd b (at_ 3%nat) d;
     wadd b (at_ 4%nat) e; wadd b (at_ 5%nat) f; wadd b (at_ 6%nat) g; wadd b (at_ 7%nat) hh].

  (** [1], then zeros, then the length in bits in two words *)
  Definition sha_pad (msg : bytes) : bytes :=
    let block := (16 * sh_bytes P)%nat in
    let used := ((length msg + 1 + 2 * sh_bytes P) mod block)%nat in
    msg ++ [x80] ++ repeat x00 ((block - used) mod block)%nat ++
    be_bytes (2 * sh_bytes P) (8 * N.of_nat (length msg)).

  Fixpoint sha_blocks (fuel : nat) (h : list N) (msg : bytes) : list N :=
    match fuel with
    | O => h
    | S fuel' =>
      if Nat.ltb (length msg) (16 * sh_bytes P) then h
      else sha_blocks fuel' (sha_compress h (firstn (16 * sh_bytes P) msg))
             (skipn (16 * sh_bytes P) msg)
    end.

  Definition sha_digest (init : list N) (msg : bytes) : bytes :=
    let p := sha_pad msg in
    let h := sha_blocks (length p) init p in
    concat (map (fun i => be_bytes (sh_bytes P) (nth i h 0)) (seq 0 8)).

  Lemma sha_digest_length : forall init m, length (sha_digest init m) = (8 * sh_bytes P)%nat.
  Proof.
    intros init m. unfold sha_digest. cbn [seq map concat].
    rewrite !app_length, !be_bytes_length. cbn [length]. lia.
  Qed.
End Sha.

Definition sha256_params : sha_params := {|
  sh_bits := 32; sh_bytes := 4;
  sh_k := [
    0x428A2F98; 0x71374491; 0xB5C0FBCF; 0xE9B5DBA5; 0x3956C25B; 0x59F111F1; 0x923F82A4; 0xAB1C5ED5;
    0xD807AA98; 0x12835B01; 0x243185BE; 0x550C7DC3; 0x72BE5D74; 0x80DEB1FE; 0x9BDC06A7; 0xC19BF174;
    0xE49B69C1; 0xEFBE4786; 0x0FC19DC6; 0x240CA1CC; 0x2DE92C6F; 0x4A7484AA; 0x5CB0A9DC; 0x76F988DA;
    0x983E5152; 0xA831C66D; 0xB00327C8; 0xBF597FC7; 0xC6E00BF3; 0xD5A79147; 0x06CA6351; 0x14292967;
    0x27B70A85; 0x2E1B2138; 0x4D2C6DFC; 0x53380D13; 0x650A7354; 0x766A0ABB; 0x81C2C92E; 0x92722C85;
    0xA2BFE8A1; 0xA81A664B; 0xC24B8B70; 0xC76C51A3; 0xD192E819; 0xD6990624; 0xF40E3585; 0x106AA070;
    0x19A4C116; 0x1E376C08; 0x2748774C; 0x34B0BCB5; 0x391C0CB3; 0x4ED8AA4A; 0x5B9CCA4F; 0x682E6FF3;
    0x748F82EE; 0x78A5636F; 0x84C87814; 0x8CC70208; 0x90BEFFFA; 0xA4506CEB; 0xBEF9A3F7; 0xC67178F2 ];
  sh_S0 := (2, 13, 22); sh_S1 := (6, 11, 25); sh_s0 := (7, 18, 3); sh_s1 := (17, 19, 10) |}.

Definition sha256 (msg : bytes) : bytes :=
  sha_digest sha256_params
    [ 0x6A09E667; 0xBB67AE85; 0x3C6EF372; 0xA54FF53A;
      0x510E527F; 0x9B05688C; 0x1F83D9AB; 0x5BE0CD19 ] msg.

Definition sha512_params : sha_params := {|
  sh_bits := 64; sh_bytes := 8;
  sh_k := [
    0x428A2F98D728AE22; 0x7137449123EF65CD; 0xB5C0FBCFEC4D3B2F; 0xE9B5DBA58189DBBC;
    0x3956C25BF348B538; 0x59F111F1B605D019; 0x923F82A4AF194F9B; 0xAB1C5ED5DA6D8118;
    0xD807AA98A3030242; 0x12835B0145706FBE; 0x243185BE4EE4B28C; 0x550C7DC3D5FFB4E2;
    0x72BE5D74F27B896F; 0x80DEB1FE3B1696B1; 0x9BDC06A725C71235; 0xC19BF174CF692694;
    0xE49B69C19EF14AD2; 0xEFBE4786384F25E3; 0x0FC19DC68B8CD5B5; 0x240CA1CC77AC9C65;
    0x2DE92C6F592B0275; 0x4A7484AA6EA6E483; 0x5CB0A9DCBD41FBD4; 0x76F988DA831153B5;
    0x983E5152EE66DFAB; 0xA831C66D2DB43210; 0xB00327C898FB213F; 0xBF597FC7BEEF0EE4;
    0xC6E00BF33DA88FC2; 0xD5A79147930AA725; 0x06CA6351E003826F; 0x142929670A0E6E70;
    0x27B70A8546D22FFC; 0x2E1B21385C26C926; 0x4D2C6DFC5AC42AED; 0x53380D139D95B3DF;
    0x650A73548BAF63DE; 0x766A0ABB3C77B2A8; 0x81C2C92E47EDAEE6; 0x92722C851482353B;
    0xA2BFE8A14CF10364; 0xA81A664BBC423001; 0xC24B8B70D0F89791; 0xC76C51A30654BE30;
    0xD192E819D6EF5218; 0xD69906245565A910; 0xF40E35855771202A; 0x106AA07032BBD1B8;
    0x19A4C116B8D2D0C8; 0x1E376C085141AB53; 0x2748774CDF8EEB99; 0x34B0BCB5E19B48A8;
    0x391C0CB3C5C95A63; 0x4ED8AA4AE3418ACB; 0x5B9CCA4F7763E373; 0x682E6FF3D6B2B8A3;
    0x748F82EE5DEFB2FC; 0x78A5636F43172F60; 0x84C87814A1F0AB72; 0x8CC702081A6439EC;
    0x90BEFFFA23631E28; 0xA4506CEBDE82BDE9; 0xBEF9A3F7B2C67915; 0xC67178F2E372532B;
    0xCA273ECEEA26619C; 0xD186B8C721C0C207; 0xEADA7DD6CDE0EB1E; 0xF57D4F7FEE6ED178;
    0x06F067AA72176FBA; 0x0A637DC5A2C898A6; 0x113F9804BEF90DAE; 0x1B710B35131C471B;
    0x28DB77F523047D84; 0x32CAAB7B40C72493; 0x3C9EBE0A15C9BEBC; 0x431D67C49C100D4C;
    0x4CC5D4BECB3E42B6; 0x597F299CFC657E2A; 0x5FCB6FAB3AD6FAEC; 0x6C44198C4A475817 ];
  sh_S0 := (28, 34, 39); sh_S1 := (14, 18, 41); sh_s0 := (1, 8, 7); sh_s1 := (19, 61, 6) |}.

Definition sha512 (msg : bytes) : bytes :=
  sha_digest sha512_params
    [ 0x6A09E667F3BCC908; 0xBB67AE8584CAA73B; 0x3C6EF372FE94F82B; 0xA54FF53A5F1D36F1;
      0x510E527FADE682D1; 0x9B05688C2B3E6C1F; 0x1F83D9ABFB41BD6B; 0x5BE0CD19137E2179 ] msg.

Lemma sha256_length : forall m, length (sha256 m) = 32%nat.
Proof. intros m. apply sha_digest_length. Qed.

Lemma sha512_length : forall m, length (sha512 m) = 64%nat.
Proof. intros m. apply sha_digest_length. Qed.

(** FIPS 180-4 examples *)
Example sha256_abc : from_be (sha256 [x61; x62; x63]) =
  0xBA7816BF8F01CFEA414140DE5DAE2223B00361A396177A9CB410FF61F20015AD.
Proof. vm_compute. reflexivity. Qed.

Example sha256_empty : from_be (sha256 []) =
  0xE3B0C44298FC1C149AFBF4C8996FB92427AE41E4649B934CA495991B7852B855.
Proof. vm_compute. reflexivity. Qed.

Example sha256_two_blocks : from_be (sha256 (repeat x61 119)) =
  0x31EBA51C313A5C08226ADF18D4A359CFDFD8D2E816B13F4AF952F7EA6584DCFB.
Proof. vm_compute. reflexivity. Qed.

Example sha512_abc : from_be (sha512 [x61; x62; x63]) =
  0xDDAF35A193617ABACC417349AE20413112E6FA4E89A97EA20A9EEEE64B55D39A2192992A274FC1A836BA3C23A3FEEBBD454D4423643CE80E2A9AC94FA54CA49F.
Proof. vm_compute. reflexivity. Qed.

Example sha512_two_blocks : from_be (sha512 (repeat x61 240)) =
  0x4C296D90C61052A62FFB1DD196F1B7B09373B1F93E71836BAEBF89690546B7595684DBE9467A8E484FA0D1094272B4344A7C24F5FEE8DAEDEB0BF549C985AB5F.
Proof. vm_compute. reflexivity. Qed.
