(** Specification of the built-in networks: their published parameters, as the documents of the
    repository's test (consensus.rs:540-563) with a constructor for each JSON form, and the reward
    schedule of the main network. *)

From Verif Require Import Base Io Model_encoding Model_common Model_currency Model_json.
Local Open Scope string_scope.
Local Open Scope N_scope.

Definition text (s : string) : json := JStr (ascii s).
Definition number (n : N) : json := JUint (uwrap 64 n).
Definition members (l : list (string * json)) : json := JObj (map (fun x => (ascii (fst x), snd x)) l).

Definition anagami_document : json :=
  members [("name", text "anagami");
    ("initialCoinbase", text "300000000000000000000000000000");
    ("minimumCoinbase", text "300000000000000000000000000000");
    ("initialTarget", text "0000000100000000000000000000000000000000000000000000000000000000");
    ("blockInterval", number 600000000000);
    ("maturityDelay", number 144);
    ("hardforkDevAddr", members [("height", number 1);
      ("oldAddress", text "000000000000000000000000000000000000000000000000000000000000000089eb0d6a8a69");
      ("newAddress", text "000000000000000000000000000000000000000000000000000000000000000089eb0d6a8a69")]);
    ("hardforkTax", members [("height", number 2)]);
    ("hardforkStorageProof", members [("height", number 5)]);
    ("hardforkOak", members [("height", number 10);
      ("fixHeight", number 12);
      ("genesisTimestamp", text "2024-08-22T00:00:00Z")]);
    ("hardforkASIC", members [("height", number 20);
      ("oakTime", number 10000000000000);
      ("oakTarget", text "0000000100000000000000000000000000000000000000000000000000000000")]);
    ("hardforkFoundation", members [("height", number 30);
      ("primaryAddress", text "241352c83da002e61f57e96b14f3a5f8b5de22156ce83b753ea495e64f1affebae88736b2347");
      ("failsafeAddress", text "000000000000000000000000000000000000000000000000000000000000000089eb0d6a8a69")]);
    ("hardforkV2", members [("allowHeight", number 2016);
      ("requireHeight", number 2304)])].

Definition mainnet_document : json :=
  members [("name", text "mainnet");
    ("initialCoinbase", text "300000000000000000000000000000");
    ("minimumCoinbase", text "30000000000000000000000000000");
    ("initialTarget", text "0000000020000000000000000000000000000000000000000000000000000000");
    ("blockInterval", number 600000000000);
    ("maturityDelay", number 144);
    ("hardforkDevAddr", members [("height", number 10000);
      ("oldAddress", text "7d0c44f7664e2d34e53efde0661a6f628ec9264785ae8e3cd7c973e8d190c3c97b5e3ecbc567");
      ("newAddress", text "f371c70bce9eb8979cd5099f599ec4e4fcb14e0afcf31f9791e03e6496a4c0b358c98279730b")]);
    ("hardforkTax", members [("height", number 21000)]);
    ("hardforkStorageProof", members [("height", number 100000)]);
    ("hardforkOak", members [("height", number 135000);
      ("fixHeight", number 139000);
      ("genesisTimestamp", text "2015-06-06T14:13:20Z")]);
    ("hardforkASIC", members [("height", number 179000);
      ("oakTime", number 120000000000000);
      ("oakTarget", text "0000000000000000200000000000000000000000000000000000000000000000")]);
    ("hardforkFoundation", members [("height", number 298000);
      ("primaryAddress", text "053b2def3cbdd078c19d62ce2b4f0b1a3c5e0ffbeeff01280efb1f8969b2f5bb4fdc680f0807");
      ("failsafeAddress", text "27c22a6c6e6645802a3b8fa0e5374657438ef12716d2205d3e866272de1b644dbabd53d6d560")]);
    ("hardforkV2", members [("allowHeight", number 1000000);
      ("requireHeight", number 1025000)])].

Definition zen_document : json :=
  members [("name", text "zen");
    ("initialCoinbase", text "300000000000000000000000000000");
    ("minimumCoinbase", text "300000000000000000000000000000");
    ("initialTarget", text "0000000100000000000000000000000000000000000000000000000000000000");
    ("blockInterval", number 600000000000);
    ("maturityDelay", number 144);
    ("hardforkDevAddr", members [("height", number 1);
      ("oldAddress", text "000000000000000000000000000000000000000000000000000000000000000089eb0d6a8a69");
      ("newAddress", text "000000000000000000000000000000000000000000000000000000000000000089eb0d6a8a69")]);
    ("hardforkTax", members [("height", number 2)]);
    ("hardforkStorageProof", members [("height", number 5)]);
    ("hardforkOak", members [("height", number 10);
      ("fixHeight", number 12);
      ("genesisTimestamp", text "2023-01-13T08:53:20Z")]);
    ("hardforkASIC", members [("height", number 20);
      ("oakTime", number 10000000000000);
      ("oakTarget", text "0000000100000000000000000000000000000000000000000000000000000000")]);
    ("hardforkFoundation", members [("height", number 30);
      ("primaryAddress", text "053b2def3cbdd078c19d62ce2b4f0b1a3c5e0ffbeeff01280efb1f8969b2f5bb4fdc680f0807");
      ("failsafeAddress", text "000000000000000000000000000000000000000000000000000000000000000089eb0d6a8a69")]);
    ("hardforkV2", members [("allowHeight", number 100000);
      ("requireHeight", number 102000)])].

(** Siacoins paid to the miner of block [h] of the main network. *)
Definition mainnet_coins (h : N) : N := if h <=? 270000 then 300000 - h else 30000.

(** The sum of [f 1], ..., [f n]. *)
Fixpoint total (f : N -> N) (n : nat) : N :=
  match n with O => 0 | S k => total f k + f (N.of_nat (S k)) end.

(** Siacoins mined in blocks 1 to [n] of the main network. *)
Definition mainnet_mined (n : N) : N :=
  if n <=? 270000 then 300000 * n - n * (n + 1) / 2
  else 300000 * 270000 - 270000 * 270001 / 2 + 30000 * (n - 270000).

(** Heights at which the reward, in hastings, does not overflow 128 bits *)
Definition plausible (h : N) : Prop := h < 340282366920938.
