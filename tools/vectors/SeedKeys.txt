(** The key vectors of sia/src/seed.rs:113-133. Kept out of the build because the independent
    checker has no virtual machine and needs hours for a few scalar multiplications: see
    tools/vectors.sh. *)

From Verif Require Import Base Model_common Model_signing Model_seed.
Local Open Scope N_scope.

(** seed.rs:113-133: five of the thirteen indices (each costs a scalar multiplication) *)
Definition key_phrase : bytes := ascii
  "wealth salon venue abstract blossom hollow south over accuse bunker guide saddle"%string.

Definition key_vectors : list (N * N) := [
  (0,
   0xe313a1aa2dbe411b5335ced5592e87cb002f47a874e27e9cb90eab285c675e366d29b52b7b312fb5e4f657afd0105d3d6dcc5c326131a033597501d25612789f);
  (9,
   0x9abd3e40d6d3b10d36966cec65861d7f08c6aa7f2d2845b0e9f10e15cc9e9f28eb63b79a7719c1a8323fe2d3da06d121ccbda1342d9f0913860f5e0817af1390);
  (4294967295,
   0x71945cbc310c189f01fe8727a0060c007528aa0fd4812e4c5c7aa8b0e518906fc7dcf5e7623152e310ed440b8abf02e02fbead45553f13b3e8a7bea78a16d1b8);
  (4294967296,
   0x41602321666c7ba93b05729208897ddf89940afdf02c38ebbd88f0a4906839232cd126afb5ccaef91ab77fcc27d076d94c5d152729bde3794bcd03226679889c);
  (18446744073709551615,
   0xc03b2570cb69e300cd4ccbe0c4d8ee7b8ccfad7383f10aa2df52a4a9d05ab843d39fbd56458e94d711061748a051d434d2200e1af71df56070d2df0883453b2c)].

Definition key_ok (v : N * N) : bool :=
  match from_mnemonic (fun t => t) key_phrase with
  | inl s =>
      N.eqb (from_be (sk_as_bytes (seed_private_key s (uwrap 64 (fst v))))) (snd v)
  | inr _ => false
  end.

Example keys_ok : forallb key_ok key_vectors = true.
Proof. vm_cast_no_check (eq_refl true). Qed.
