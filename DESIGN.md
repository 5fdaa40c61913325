# Formal model of SiaFoundation/core-rs in Rocq

Everything is in `/verif/rocq` (logical name `Verif`), Coq 8.16.1, standard library only.
The properties are in `properties.jsonl`, the map from properties to theorems in `MANIFEST.json`,
the mutation log in `seeded/LOG.jsonl`.

## 1. Modelling decisions

* **Rust values become Coq types, not predicates.** `u8` is `Coq.Init.Byte.byte`; `u64`, `u128`, ... are
  `uint w` (an `N` with a boolean proof that it is `< 2^w`); `i64` is `sint w`; `[u8; N]` is `arr N`
  (a list with a boolean length proof); `Vec<T>` is `vec size_of(T) T`, a list whose allocation fits
  `isize::MAX` (what Rust's allocator guarantees for every `Vec` that exists); `String` is a byte list with
  a boolean UTF-8 validity proof. The booleans make proofs of equality irrelevant without an axiom, and theorems
  are stated for *all* values of the type, with no well-formedness side condition that could be vacuous.
* **Panics and aborts are values.** Decoders can end in `Ok`, `Err e` or `Panic why`. Arithmetic takes the build
  profile (`Debug` = overflow checks, as `cargo build`; `Release` = wrapping, as `cargo build --release`; the
  workspace sets no `overflow-checks`), so both behaviours are covered.
* **Decoders are programs over `read_exact`.** A decoder is an inductive tree `dec A` (return / error / panic /
  read n bytes and continue). It is interpreted both over a flat byte string and over an adversarial reader which
  splits data into short reads, interrupts and fails. Meta-theorems (chunk independence, truncation) are proved once
  by induction on the tree and hold for every decoder of the model.
* **Encoders are programs over `write_all`.** An encoder is a list of `write_all` calls, each marked by whether the
  code propagates (`?`) or unwraps the error. It is interpreted over an infallible sink (the byte string), and over
  adversarial writers with short writes, interruptions and a failure point.
* **BLAKE2b-256 is implemented** in the model as an executable function, so the model computes real addresses and
  IDs, checked against the vectors in the repository's own tests (`Vectors*.v`). The binding theorems do not assume
  anything about it: they conclude "equal, or here are two explicit different inputs of BLAKE2b with the same
  output" (`collision`).
* **Ed25519, SHA-2 and BIP-39 are transcribed too** (`Sha2.v`, `Model_signing.v`, `Model_seed.v`): the functions of
  `ed25519-dalek`, `curve25519-dalek`, `sha2` and `bip39` that the crate calls are written out and computed; nothing
  about them is assumed. That 2^255-19 and the group order are prime is proved (Pocklington certificates), and so is
  the group law of the curve. The one parameter left is Unicode normalisation (NFKD) of a recovery phrase, a
  function argument of the model about which the theorems that mention it state their hypothesis.

## 2. Plan per property

| id | model | proof |
|---|---|---|
| C01, C02 | encoders and decoders of every type, v1 and v2, function by function | stream round-trip law per type, composed; induction on policies and vectors |
| C03 | same | corollary of the stream round trip |
| C04, C05 | decoder trees, adversarial reader | induction on the decoder tree |
| C06 | write programs, adversarial writer | induction on the program; `State::encode` unwraps: refuted for it |
| C07 | `Panic` outcome (capacity overflow, timestamp unwrap, stack) | refuted by witnesses; exact panic conditions proved for the panic-free decoders |
| C08 | same decoders | converse law per type (`decode b = v -> b = encode v ++ rest`); refuted for v1 Currency, v1 SiafundOutput, v2 Transaction, narrow integers |
| C09, C10, C11 | primitive codecs | against an independent little/big-endian value function and the Unicode table of well-formed UTF-8 |
| C12, C13 | Duration (i128 ns), OffsetDateTime (s, ns) | arithmetic; refuted for negative durations, sub-second timestamps |
| C14, C15 | decimal printer, `parse_string` character by character | digit-list induction; spec is a rational amount; refuted by overflow witnesses |
| C16 | u128 arithmetic with profile | arithmetic |
| C17-C22 | hex, Display, parse functions over byte strings | characterisation `parse s = Ok v <-> ...` |
| C23 | accumulator as in the code | refuted from four leaves on; proved for the lengths on which the carry is right |
| C24 | UnlockConditions::address | refuted for two keys; proved for zero or one key; for any numbers of keys, exactly which conditions share an address (`SpecTree.v`) |
| C25 | sector_root loops | tree loop proved generically; leaf loop refuted; schedule independence proved |
| C26-C29 | inductive SpendPolicy | induction on policies; width >= 256 refuted; depth unbounded |
| C30-C35 | ChainState functions with profile | integer arithmetic, monotonicity |
| C36-C42 | hash preimages as byte strings | injectivity from the stream round trips, length and prefix arguments |
| C43-C46 | codecs | as C01 plus explicit layout |
| C47, C48 | bip39, SHA-256/512 and ed25519-dalek transcribed; Unicode normalisation is a parameter | curve group law proved over the field of integers mod 2^255-19; refuted by a non-point public key |
| C49-C51 | JSON value trees (`serde_json::Value`), base64 | round trip per type |
| C52 | `State::encode`, which unwraps | refuted for failing writers; proved for accepting ones, and at which bytes a failure panics |
| C53 | all encoders | equal to `SpecLayout.v`, which lays out every type without the encoders |
| C54 | all hash preimages | equal to the byte strings of `SpecLayout.v` |
| C55 | all serialisers | the tree that is written is in the relation of `SpecDoc.v` for its type |
| C56 | all deserialisers | accepted trees characterised by `StructReader`, `PolicyReader`, `ResolutionReader` of `SpecAccept.v` |
| C57 | network constants, chain state functions | the documents of `SpecNetworks.v` are computed; the schedules follow from C30-C33, totals by induction |
| C58 | derive macros as functions on declarations, and what the compiler makes of their output | induction on the fields; the hand expansions of the model are proved equal to the generated code |
| C59 | `serde_json::{to_string, to_string_pretty, from_str}` on bytes | the parser accepts exactly the RFC 8259 grammar (soundness and completeness by induction on fuel and on the document); the printer stays in it; the indented text is the compact one laid out by a scanner that knows only strings and brackets (`SpecIndent.v`); `Model_skip.v` reads past unknown members as serde_json does, `SpecSkip.v` is the grammar of what they may hold |
| C60 | `standard_unlock_conditions`, `UnlockKey::from(PublicKey)`, `SpendPolicy::threshold` | by computation from C24 and C54; the decoder's nested unlock conditions are the witness of the refutation |
| C61 | the conversions, defaults and constructors that wrap a value | computation; injectivity of decimal and hexadecimal digits |
| C62 | the sizes asked of the allocator while decoding, in order | credit argument on decoders: 16 bytes per byte read pay for the vectors that are filled; refuted by a length prefix alone |
| C63 | the byte strings each decoder accepts, as a grammar | relational grammar in `SpecGrammar.v`; composition lemma for sequences of parts, vectors by induction, one lemma per non-strict type |
| C64 | serde with formats that are not human readable | trees as for JSON, with the two branches on `is_human_readable` taken the other way (`Model_binary.v`); one lemma for structs with a field that is lost, then each type by its fields; the documents are compared with the JSON ones by a relation that lets only hashes differ, and the readers by what they give for every document |
| C65 | what every decoder does with every input | frames: the strings taken, ended at and found too short, composed like the format (`SpecFrame.v`); two lemmas per combinator, that the decoder follows the frame and that the frame covers every input, then each type by its fields |
| C66 | `Debug` of `PrivateKey`; memory as pieces of storage that make, clone, move, derive, sign and drop act on | injectivity of the text; invariant over histories; refuted by short histories (`Model_secret.v`) |
| C67 | how often a decoder turns to its reader and to the allocator | credit argument: every read but the last one pays with a byte (`WorkProofs.v`) |
| C68 | `encode`, `address` and the destructor of policies with a limited number of nested calls | induction on the stack; refuted for every fixed stack (`Model_stack.v`) |
| C69 | the `serde_json::Value`s built while policies are written and read | sizes of documents by induction; refuted by nested thresholds (`Model_stack.v`) |
| C70 | errors of `parse_string` for hashes, addresses, leaves, signatures, unlock keys and amounts | `Model_text.v`, `Model_currency.v`; what each error means is in `SpecReject.v`; by induction over the digit loops |
| C71 | `OffsetDateTime` with its offset from UTC: RFC 3339 texts, wire encoding, equality | `Model_zoned.v`; which texts say which time is in `SpecZoned.v`; inversion of the parser and the calendar of C49; two edges refuted |
| C72 | one signature, one message: v1 transactions and v2 objects, from the seed to the verified hash | composition of C38, C40-C42, C47 and C48 over the messages of `SpecPurpose.v`; refuted for signatures over chosen parts of v1 transactions |
| C73 | the fate in JSON of everything decoded from the wire, by the names in its unlock keys | the codecs of C49 with three outcomes for every member (read back, refused, panic), composed with C08 and C59; `SpecFate.v` |
| C74 | what is read from JSON, written as JSON again or as bytes | the readers of C61 inverted (names of keys, nesting, fractions of seconds), composed with C73, C59, C01 and C08; writing is never nested more deeply than what was read, by induction over every codec (`NestProofs.v`); `SpecSend.v` |

A property that is false of the code keeps its full statement: the theorem `..._refuted` gives the witness, and
`..._partial` proves the strongest part found that is true.

## 3. Layout of `rocq/theories`

| files | content |
|---|---|
| `Base.v`, `Io.v` | machine integers, bytes, arrays, outcomes; readers, writers, decoder trees, write programs |
| `Model_*.v` | the code of the repository, one file per source file, every definition with its lines |
| `Blake2b.v`, `Sha2.v`, `Bip39Words.v`, `Model_ed25519.v` | dependencies the repository computes with, written out |
| `Spec*.v` | specifications. `SpecLayout.v`, `SpecDoc.v`, `SpecText.v`, `SpecMerkle.v`, `SpecUtf8.v`, `SpecBase64.v`, `SpecSeed.v`, `SpecCurve.v`, `SpecSign.v` and `SpecNetworks.v` do not use functions of the model, only its data types |
| `*Proofs.v`, `*More.v`, `Codec*.v`, `LayoutTxn.v`, `DocTime.v`, `Prime.v`, `Fp.v`, `EdwardsGeneric.v` | lemmas |
| `Samples.v`, `*Examples.v`, `VectorsSeed.v` | concrete values and the repository's vectors evaluated in the model |
| `P_*.v` | the property theorems only: each closed by `exact`, with `Print Assumptions` and a concrete case beside it |

| property file | properties |
|---|---|
| `P_wire.v` | C01-C08, C52 |
| `P_basic.v`, `P_format.v` | C09-C13, C44-C46 |
| `P_text.v` | C14-C22 |
| `P_address.v` | C23-C29 |
| `P_consensus.v` | C30-C35 |
| `P_ids.v` | C36-C42 |
| `P_keys.v` | C47, C48 |
| `P_json.v`, `P_doc.v` | C43, C49-C51, C55, C56 |
| `P_layout.v` | C53, C54 |
| `P_networks.v` | C57 |
| `P_derive.v` | C58 |
| `P_jsontext.v`, `P_skip.v` | C59 |
| `P_construct.v`, `P_convert.v` | C60, C61 |
| `P_memory.v` | C62 |
| `P_grammar.v` | C63 |
| `P_binary.v` | C64 |
| `P_frame.v` | C65 |
| `P_secret.v` | C66 |
| `P_work.v` | C67 |
| `P_stack.v` | C68, C69 |
| `P_reject.v` | C70 |
| `P_zoned.v` | C71 |
| `P_purpose.v` | C72 |
| `P_fate.v` | C73 |
| `P_send.v` | C74 |

`tools/mkprops.py` writes `properties.jsonl`, `tools/mkmanifest.py` writes `MANIFEST.json` from the theorems of `P_*.v` and
`tools/notes.json`, `tools/vectors.sh` runs the vectors that are too slow for the build, `tools/mutate.py` runs the
mutations behind `seeded/LOG.jsonl`.

## 4. Trusted base

**Coq.** The kernel of Coq 8.16.1 with its virtual machine (`vm_compute`, in concrete cases, in decisions over all
bytes and in primality certificates). `Print Assumptions` says "Closed under the global context" under every theorem of
`P_*.v`: no axiom, not even of the standard library. (`coqchk` also lists the declarations of `Coq.ssr.ssrunder`, a sealed
module of the standard library that is loaded; no theorem here uses them.) No plugin, no functor, no module type.

**The correspondence of model and code.** It is by reading. Every definition cites the lines it models. The model is
executable, and the repository's own test vectors (encodings, hashes, addresses, phrases, keys, JSON documents) are evaluated
in it.

**Modelled.** All of `sia/src`: `encoding/{v1,v2}.rs`, `macros.rs` (hash types and their text), `types/{common,
currency,specifier,spendpolicy,v1,v2,work}.rs`, `consensus.rs`, `merkle.rs`, `rhp.rs`, `seed.rs`, `signing.rs`; the derive macros of
`sia_derive` and the code they generate for each type; the derived and hand-written serde implementations, on JSON
trees and on the trees of binary self-describing formats.

**Dependencies, transcribed from their published behaviour.** `blake2b_simd` (BLAKE2b-256), `sha2`, `ed25519-dalek` with
`curve25519-dalek` (points and scalars; limbs and multiplication tables are replaced by integers and double-and-add), `bip39`,
`hex`, `base64`, `time` (RFC 3339 text), `serde` and `serde_json` (which trees a derived deserialiser accepts), and the
standard library (`Vec`, `String`, integer parsing, `read_exact`, `write_all`). None of their source is in the sandbox, so
these transcriptions are the part of the correspondence that could not be compared with source text.

**Not modelled.**

* JSON text is modelled as serde_json 1.0.134 reads and writes it (`Model_jsontext.v`), with these simplifications: numbers that
  are not 64-bit integers are one value (also those too large for an `f64`, which serde_json refuses except in unknown members), the text is read as a whole before the reader of the type starts, and the value of
  an unknown member is held to the same rules as any other. serde_json skips it without counting nesting or pairing surrogates:
  `Model_skip.v` does this too, and P_skip.v says what changes. It is exact except inside spend policies and contract resolutions, which are
  read into a `Value` first (there `Model_jsontext.v` is).
* Binary serde formats without field names (bincode, postcard), where the reader of a type decides how the bytes are cut.
* The Unicode tables of NFKD. `Seed::from_mnemonic` takes the normalisation as an argument; the theorems that need
  something of it ask that it leaves seven-bit text unchanged.
* Memory. `DAlloc` records what decoders ask of the allocator for vectors; that the process is aborted when it refuses, and
  when memory is given back, is not modelled. Encoders' and JSON's memory is not modelled. The stack is a
  number of nested calls given to the functions that recurse; the sizes of their frames are not modelled.
* `Debug` output other than a private key's, error texts (the error kind is modelled), `Hash`, and timing. Of the memory that
  held secrets, what a compiler makes of moves and of stores nothing reads (C66 is about the language's machine), and the temporaries of
  `Seed::from_mnemonic`, `Seed::to_mnemonic` and of the crates that are called.
* Threads. `SectorRoot` computes with rayon; the model is the sequential result, and the independence theorem is about
  every order in which the leaf and node computations may run.
* Time zones, outside `Model_zoned.v` (C71). In all other files an `OffsetDateTime` is an instant. The offset from UTC, which
  equality ignores, is dropped when a timestamp is read from JSON, and timestamps are written in UTC. Rust would write a value
  with another offset in that offset, and reads the few local times of year 9999 whose instant is in year 10000.
* Of `sia_derive`, the token streams: declarations and generated code are data types.
* `AsRef`, `Deref`, `From` and `new` implementations that only expose or wrap the bytes of a value.
