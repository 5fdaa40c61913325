#!/usr/bin/env python3
# Regenerates /verif/properties.jsonl from the table below.
import json, os
P = []
def p(title, statement, quantifier, why, *anchors):
    P.append(dict(id="C%02d" % (len(P)+1), title=title, statement=statement,
                  quantifier=quantifier, why_tests_cant=why, anchors=list(anchors)))

p("v2 wire round trip",
  "Decoding the v2 (Sia) encoding of a value yields exactly that value and leaves the reader positioned exactly after it, whatever bytes follow, for every v2-encodable type up to and including a whole v2 transaction.",
  "every value the format has room for of every type with the v2 encoding (whole-second timestamps, durations from 0 to 2^63-1 ns, at most 255 sub-policies per threshold, nesting within the stack), every sequence of trailing bytes",
  "A unit test checks single vectors; the value space (nested policies, variable length proofs, optional fields) is infinite.",
  "sia/src/encoding/v2.rs: SiaEncodable, SiaDecodable", "sia/src/types/v2.rs: Transaction", "sia/src/types/spendpolicy.rs: SpendPolicy", "sia_derive/src/lib.rs")
p("v1 wire round trip",
  "Decoding the v1 encoding of a value yields exactly that value and consumes exactly the bytes that were written, for every v1-encodable type including whole v1 transactions and blocks.",
  "every value of every type with the v1 encoding (block timestamps in whole seconds), every sequence of trailing bytes",
  "Infinite value space; nested vectors of structures.",
  "sia/src/encoding/v1.rs: V1SiaEncodable, V1SiaDecodable", "sia/src/types/v1.rs: Transaction", "sia/src/types/common.rs: Block")
p("Encodings are unambiguous",
  "Two different values of the same type never have encodings where one is a prefix of the other; in particular equal encodings mean equal values, and concatenated encodings can be split in only one way.",
  "every pair of representable values (as in C01, C02) and every pair of trailing byte strings",
  "A statement about all pairs of values.",
  "sia/src/encoding/v1.rs", "sia/src/encoding/v2.rs", "sia/src/types/v1.rs", "sia/src/types/v2.rs")
p("Truncated input is rejected",
  "If the input ends before the encoding of a value is complete, decode returns an error: it never returns a value and never panics, wherever the cut is.",
  "every representable value (as in C01, C02), every strict prefix of its encoding (every truncation point)",
  "Every truncation point of every value.",
  "sia/src/encoding/v2.rs: decode impls", "sia/src/encoding/v1.rs: decode impls")
p("Decode is independent of read chunking",
  "The result of decode depends only on the bytes delivered by the reader, not on how the reader splits them into short reads or on interrupted reads; if the reader fails, decode either already has its result or returns an error.",
  "every input, every schedule of short reads, interruptions and reader failures",
  "There are exponentially many read schedules per input.",
  "sia/src/encoding/v1.rs", "sia/src/encoding/v2.rs")
p("Encode into a failing writer",
  "encode into any writer writes exactly the encoding when the writer accepts everything, independent of short writes and interruptions; if the writer fails after any number of bytes, what was written is a prefix of the encoding and encode returns the error instead of panicking.",
  "every value of every wire type other than the chain state (C52), every short-write schedule, every failure point of the writer",
  "Every failure point of every value.",
  "sia/src/encoding/v2.rs", "sia/src/consensus.rs: State::encode")
p("Decoding untrusted bytes does not panic",
  "decode on arbitrary bytes returns a value or an error; it never panics or aborts the process.",
  "every byte string, every decodable type",
  "Attacker-chosen inputs; a fuzzer samples, it cannot settle.",
  "sia/src/encoding/v2.rs: Vec, OffsetDateTime, Duration", "sia/src/encoding/v1.rs", "sia/src/consensus.rs: State", "sia/src/types/common.rs: Block")
p("Decode accepts only canonical encodings",
  "If decode accepts a byte string as a value, re-encoding the value gives back exactly the consumed bytes, so no two byte strings are encodings of the same value.",
  "every byte string accepted by decode",
  "Ranges over every accepted byte string.",
  "sia/src/encoding/v1.rs", "sia/src/encoding/v2.rs", "sia/src/types/currency.rs: V1SiaDecodable", "sia/src/types/v2.rs: Transaction::decode", "sia/src/types/common.rs: SiafundOutput")
p("Integers: fixed little-endian layout",
  "Every integer type other than u8 is encoded as 8 bytes holding its value (sign-extended for signed types) in little-endian order, decode recovers every value of the type, and out-of-range encodings are rejected.",
  "every value of u16, u32, u64, usize, i16, i32, i64 and every 8-byte string",
  "2^64 values per type.",
  "sia/src/encoding/v1.rs: impl_sia_numeric", "sia/src/encoding/v2.rs: impl_sia_numeric")
p("Booleans, options and strings are strict",
  "Decoding a bool (or an Option tag) accepts only bytes 0 and 1; decoding a String accepts exactly the valid UTF-8 byte strings, and every other byte string gives an error.",
  "every tag byte and every payload",
  "All byte strings; UTF-8 validity has many boundary cases.",
  "sia/src/encoding/v2.rs: bool, Option, String", "sia/src/encoding/v1.rs")
p("v1 currency encoding is minimal and bounded",
  "The v1 encoding of a currency amount is a length prefix followed by the amount in big-endian without leading zero bytes; decode accepts at most 16 value bytes and never yields an amount other than the big-endian value of those bytes.",
  "every u128 amount and every byte string",
  "2^128 amounts.",
  "sia/src/types/currency.rs: V1SiaEncodable, V1SiaDecodable for Currency")
p("Durations survive encoding",
  "A duration survives the binary encoding unchanged; a binary value that is not a representable duration is rejected.",
  "every duration from 0 to 2^63-1 nanoseconds and every 8-byte string",
  "All nanosecond counts, including negative and very large ones.",
  "sia/src/encoding/v2.rs: Duration")
p("Timestamps survive encoding",
  "A timestamp survives the binary encoding unchanged, and an encoded timestamp outside the representable range is rejected with an error.",
  "every timestamp value and every 8-byte string",
  "All i64 second counts and sub-second parts.",
  "sia/src/encoding/v2.rs: OffsetDateTime")
p("Currency text round trip",
  "Parsing the decimal text of an amount (as printed by to_string and as used in JSON) yields the same amount for every amount.",
  "every u128 amount",
  "2^128 amounts.",
  "sia/src/types/currency.rs: Currency::parse_string, Serialize, Deserialize")
p("Currency parsing is exact",
  "Parsing '<integer>[.<fraction>][ ]<unit>' yields exactly the denoted amount of hastings, or an error when the text is malformed or the amount is not representable (too large or finer than one hasting); it never panics and never yields a wrong amount.",
  "every input string and both build profiles (overflow checks on or off)",
  "All strings: digit counts, units, overflow boundaries.",
  "sia/src/types/currency.rs: Currency::parse_string, parse_scalar")
p("Currency arithmetic never silently wraps",
  "checked_add/sub/mul/div return the exact result or None exactly when it is not representable; the operators +, -, *, /, sum give the exact result or panic and never produce a wrapped amount.",
  "every pair of amounts, every list of amounts, both build profiles",
  "2^256 pairs.",
  "sia/src/types/currency.rs: Add, Sub, Mul, Div, Rem, Sum, checked_*")
p("Hash and ID text form",
  "Printing any 32-byte hash or ID and parsing the text gives the same value; parse accepts exactly 64 hexadecimal digits, optionally after a prefix that ends in a colon, and yields the bytes they denote.",
  "every 32-byte value and every input string",
  "2^256 values; all strings.",
  "sia/src/macros.rs: impl_hash_id", "sia/src/types/common.rs: Hash256")
p("Address text form and checksum",
  "Printing an address and parsing it gives the same address; parse accepts a string only if it is exactly the printed form of some address (up to letter case), so any change of the text that is not a case change yields an error or a text whose checksum genuinely matches its address bytes.",
  "every address and every input string",
  "2^256 addresses and all strings.",
  "sia/src/types/common.rs: Address::parse_string, Display")
p("Compile-time literals agree with run-time parsing",
  "The address!, hash_256!/ID and public_key! literal macros yield the same value as run-time parsing for every text run-time parsing accepts, and reject (fail to compile) everything run-time parsing rejects.",
  "every literal string",
  "All strings.",
  "sia/src/macros.rs: decode_hex_256, decode_hex_pair, decode_hex_char, address!, public_key!")
p("Specifier text form",
  "Converting a text of at most 16 bytes to a specifier and printing it returns the text, and distinct texts give distinct specifiers; printing any specifier and converting back returns the specifier.",
  "every specifier and every text",
  "2^128 specifiers.",
  "sia/src/types/specifier.rs: Specifier")
p("Unlock key text form",
  "Printing an unlock key and parsing the text gives the same unlock key, for every unlock key that can be decoded from the wire; printing never panics.",
  "every unlock key (any algorithm specifier, any key bytes)",
  "All algorithm specifiers, including non-UTF-8 and those containing a colon.",
  "sia/src/types/v1.rs: UnlockKey::parse_string, Display")
p("Keys, signatures and work: text forms",
  "Public keys ('ed25519:'-prefixed hex), signatures (hex) and work (decimal) survive their text forms, and parse rejects wrong lengths, wrong prefixes and non-digits.",
  "every key, signature, work value, and every input string",
  "2^256 and 2^512 value spaces.",
  "sia/src/signing.rs: PublicKey, Signature", "sia/src/types/work.rs: Work")
p("Merkle accumulator computes the Merkle root",
  "After adding any sequence of leaves, the accumulator's root is the Merkle tree root of the sequence (leaf order preserved, split at the largest power of two), and is therefore sensitive to every leaf.",
  "every sequence of leaf hashes of any length",
  "All sequence lengths; the carry chain shows up only from 4 leaves on.",
  "sia/src/merkle.rs: Accumulator::add_leaf, root")
p("Unlock-condition address commits to all conditions",
  "Two different unlock conditions (timelock, ordered public keys, required signatures) have different addresses unless the hash function collides.",
  "every pair of unlock conditions with any number of keys",
  "All pairs of structures with arbitrarily many keys.",
  "sia/src/types/v1.rs: UnlockConditions::address", "sia/src/merkle.rs")
p("Sector root commits to the whole sector",
  "The sector root is the Merkle root of the sector's 64-byte segments in order, so two different sectors have different roots unless the hash collides, and the result does not depend on how the parallel loops are scheduled.",
  "every 4 MiB sector and every schedule of the parallel loops",
  "2^(2^25) sectors; all schedules.",
  "sia/src/rhp.rs: sector_root")
p("Spend policy address is invariant under opaque redaction",
  "Replacing any sub-policy of a policy, at any depth, by the opaque policy of its address leaves the policy's address unchanged.",
  "every policy, every position in it",
  "Recursive structure of unbounded depth.",
  "sia/src/types/spendpolicy.rs: SpendPolicy::address")
p("Spend policy address binds the policy",
  "Two policies with the same address are equal up to opaque redaction of sub-policies, unless the hash function collides.",
  "every pair of policies",
  "All pairs of recursive structures.",
  "sia/src/types/spendpolicy.rs: SpendPolicy::address, encode")
p("Spend policy wire round trip",
  "Every spend policy that the API can construct encodes to bytes that decode to the same policy, and decode rejects unknown versions and unknown policy types.",
  "every policy, of every depth and width",
  "Unbounded width and depth; the width byte overflows only at 256 children.",
  "sia/src/types/spendpolicy.rs: encode, decode, encode_policy, decode_policy")
p("Bounded resource use when decoding policies",
  "Decoding a spend policy of any input uses a bounded number of nested calls.",
  "every input byte string",
  "All inputs; the depth is attacker-chosen.",
  "sia/src/types/spendpolicy.rs: decode_policy")
p("Block reward schedule",
  "The block reward at every height is the initial coinbase minus one siacoin per block, but never below the minimum coinbase; it never increases with height.",
  "every height up to 340282366920937 (beyond, one siacoin per block is more than 128 bits) and every network parameter set",
  "Billions of heights and all parameter sets.",
  "sia/src/consensus.rs: ChainState::block_reward", "sia/src/types/currency.rs: Currency::siacoins")
p("Foundation subsidy schedule",
  "A foundation subsidy is paid exactly at the foundation hardfork height and every blocks_per_month after it and never otherwise; each payment equals the per-block subsidy times the number of blocks it covers, and is paid to the state's foundation address; the computation never panics.",
  "every chain state and network",
  "All heights and all network parameters.",
  "sia/src/consensus.rs: ChainState::foundation_subsidy, blocks_per_month")
p("Replay prefix and nonce factor follow the hardforks",
  "The replay prefix identifies the latest activated replay-protecting hardfork, is constant between hardforks, and differs across each hardfork; the nonce factor changes exactly at the ASIC hardfork.",
  "every height and every ordered set of hardfork heights",
  "All heights and networks.",
  "sia/src/consensus.rs: ChainState::replay_prefix, nonce_factor")
p("Maturity and child height",
  "The child height is one more than the current height and outputs mature exactly maturity_delay blocks after the child block; both are strictly increasing in the height.",
  "every chain state whose child and maturity heights are below 2^64",
  "All heights up to the top of the u64 range.",
  "sia/src/consensus.rs: ChainState::maturity_height, child_height", "sia/src/types/common.rs: ChainIndex")
p("v1 file contract tax",
  "The v1 contract tax is a multiple of the siafund count (10000), never exceeds 3.9% of the payout, differs from 3.9% by less than 10000 hastings after the tax hardfork, never panics, and is monotone in the payout.",
  "every payout and every height below 2^64 - 1",
  "2^128 payouts, with a floating-point constant before the fork.",
  "sia/src/types/v1.rs: FileContract::tax", "sia/src/consensus.rs: siafund_count")
p("v2 file contract tax",
  "The v2 contract tax is a multiple of 10000, at most 4% of renter plus host payout and within 10000 hastings of it, for every contract; it never panics or wraps.",
  "every contract, both build profiles",
  "2^256 pairs of outputs.",
  "sia/src/types/v2.rs: FileContract::tax")
p("Identifier derivations are domain separated",
  "Two identifiers derived by any two of the derivation functions (v1/v2 siacoin, siafund, contract, attestation, claim, proof, renewal, miner and foundation outputs) from different arguments are different unless the hash function collides.",
  "every pair of derivations and arguments",
  "All pairs of derivation kinds, parents and indices.",
  "sia/src/types/common.rs: SiafundOutputID, BlockID, TransactionID, FileContractID", "sia/src/types/v1.rs: Transaction::derive_child_id")
p("v1 transaction ID ignores signatures and binds everything else",
  "The v1 transaction ID and its child output IDs do not change when signatures are added, removed or changed, and two transactions that differ in anything else have different IDs unless the hash function collides.",
  "every pair of v1 transactions",
  "All pairs of transactions.",
  "sia/src/types/v1.rs: Transaction::id, encode_no_sigs, siacoin_output_id, siafund_output_id, file_contract_id")
p("v1 whole-transaction signature hash",
  "The whole-transaction signature hash binds every non-signature part of the transaction, the parent ID, key index and timelock, and the replay prefix: different inputs give different hashes unless the hash function collides; it does not depend on the transaction's signatures.",
  "every pair of transactions, signature parameters and chain states",
  "All pairs of transactions and hardfork states.",
  "sia/src/types/v1.rs: Transaction::whole_sig_hash")
p("v1 partial signature hash",
  "The partial signature hash fails with an error exactly when a covered index is out of range and otherwise depends only on the covered elements; it binds the covered elements: different covered content gives a different hash unless the hash function collides.",
  "every transaction and every covered-fields value",
  "All index lists, including out-of-range, repeated and empty ones.",
  "sia/src/types/v1.rs: Transaction::partial_sig_hash, CoveredFields")
p("v2 transaction ID and input signature hash bind the transaction",
  "The v2 transaction ID and input signature hash do not change when witness data (satisfied policies, Merkle proofs, contract signatures) changes, and bind everything else: two transactions that differ in non-witness data have different IDs and signature hashes unless the hash function collides.",
  "every pair of v2 transactions",
  "All pairs of transactions.",
  "sia/src/types/v2.rs: Transaction::encode_semantics, id, input_sig_hash")
p("v2 signature hashes are domain separated and replay protected",
  "The signature hashes of attestations, contracts, contract renewals and transaction inputs never coincide across kinds or across different replay prefixes unless the hash function collides.",
  "every pair of signed objects and chain states",
  "All pairs of signable objects.",
  "sia/src/types/v2.rs: sig_hash functions, input_sig_hash", "sia/src/consensus.rs: replay_prefix")
p("Contract, renewal and attestation signature hashes",
  "A contract's (renewal's, attestation's) signature hash ignores exactly the signatures it is meant to be signed by, and binds every other field.",
  "every pair of contracts, renewals or attestations",
  "All pairs of structures.",
  "sia/src/types/v2.rs: FileContract::sig_hash, FileContractRenewal::sig_hash, Attestation::sig_hash")
p("Element accumulator encoding",
  "An element accumulator encodes its leaf count followed by exactly the roots of the trees present (one per set bit, lowest first); decoding gives back the leaf count and every present root, with absent trees zero (so an accumulator whose absent trees are zero is recovered, and only such are decoded); the JSON form lists the same roots, is read as the same accumulator, and is rejected when the number of trees does not match the leaf count.",
  "every accumulator, every byte string, every JSON tree list",
  "2^64 leaf counts.",
  "sia/src/consensus.rs: ElementAccumulator")
p("Chain state encoding",
  "A chain state encodes and decodes to the same state for every height, storing exactly min(height+1, 11) previous timestamps.",
  "every state",
  "All heights including u64::MAX.",
  "sia/src/consensus.rs: State")
p("v2 transaction field bitmap",
  "In the v2 transaction encoding each optional section is present exactly when it is non-empty and this is what the bitmap says; an empty transaction is the version byte and a zero bitmap; decode rejects other versions and unknown sections.",
  "every v2 transaction and every byte string",
  "2^11 presence combinations times all contents.",
  "sia/src/types/v2.rs: Transaction encode/decode")
p("Contract resolution tags",
  "A contract resolution decodes to the same kind it was encoded as, and an unknown kind is rejected.",
  "every resolution and every tag byte",
  "All resolutions and bytes.",
  "sia/src/types/v2.rs: FileContractResolution, ContractResolution")
p("Seeds and derived keys",
  "Keys derived from a seed at different indices come from different hash inputs, derivation is the same for a seed restored from its recovery phrase, and every 16-byte seed survives its recovery phrase.",
  "every seed and every pair of indices",
  "2^128 seeds and 2^64 indices.",
  "sia/src/seed.rs: Seed")
p("Sign and verify",
  "A signature made with a private key verifies under its public key for that hash, and verify returns a boolean for every public key and signature (never panics).",
  "every private key, hash, public key and signature bytes",
  "All keys and messages, including public keys that are not curve points.",
  "sia/src/signing.rs: PublicKey::verify, PrivateKey::sign_hash, from_seed, public_key")
p("JSON round trips",
  "Serialising any value to JSON and deserialising it gives the same value for every JSON-enabled type, in particular spend policies of any depth, covered fields with omitted empty lists, transactions and accumulators.",
  "every value of every JSON-enabled type",
  "Infinite value space.",
  "sia/src/types/spendpolicy.rs: Serialize, Deserialize", "sia/src/types/v1.rs: CoveredFields, Transaction", "sia/src/types/v2.rs", "sia/src/types/utils.rs")
p("Base64 payloads",
  "Binary payloads carried as base64 in JSON decode to the same bytes, and text that is not canonical base64 is rejected.",
  "every byte string and every text",
  "All byte strings.",
  "sia/src/types/utils.rs: base64, vec_base64")
p("Timestamp arrays in JSON",
  "A list of at most eleven timestamps deserialises to an eleven-element array with the given timestamps first; longer lists are rejected; arrays of timestamps that RFC 3339 can express (years 0 to 9999) are read back unchanged, and others are an error when serialising.",
  "every list of timestamps",
  "All lengths.",
  "sia/src/types/utils.rs: timestamp_array")
p("Chain state into a failing writer",
  "Encoding a chain state into a writer that fails after any number of bytes returns the error instead of panicking.",
  "every chain state, every short-write schedule, every failure point of the writer",
  "Every failure point of every value.",
  "sia/src/consensus.rs: SiaEncodable for State")
p("The wire layout of every type",
  "Every value is written as the documented sequence of fields: integers in eight little-endian bytes, v2 amounts in sixteen, v1 amounts as a length and the significant big-endian bytes, sequences with a count, options with a flag, v2 transactions as version, bitmap and present sections, chain states with the timestamps so far. These bytes are what other Sia implementations read; they are decoded to the value.",
  "every value of every wire type in v1 and v2, the chain state below the highest height",
  "Both sides of a codec can be wrong in the same way and still round-trip on every test value.",
  "sia/src/encoding/v1.rs", "sia/src/encoding/v2.rs", "sia/src/types/common.rs", "sia/src/types/v1.rs", "sia/src/types/v2.rs", "sia/src/types/spendpolicy.rs", "sia/src/types/work.rs", "sia/src/consensus.rs: State, ElementAccumulator")
p("What every identifier, signature hash and address is the hash of",
  "Each identifier, each hash that is signed and each address is BLAKE2b-256 of a fixed byte string: prefix or specifier, replay prefix where there is one, and the layouts of the fields it covers, with signatures zeroed or left out. Other Sia implementations compute the same values.",
  "every transaction, contract, attestation, policy, unlock conditions, chain state, index",
  "A wrong prefix or an omitted field changes every value consistently; tests see a few values.",
  "sia/src/types/common.rs", "sia/src/types/v1.rs: Transaction::{id, whole_sig_hash, partial_sig_hash}, UnlockConditions::address", "sia/src/types/v2.rs: sig_hash, encode_semantics", "sia/src/types/spendpolicy.rs: address", "sia/src/consensus.rs: replay_prefix")

p("The JSON document of every type",
  "Every value is written as the documented JSON: the same member names as other Sia implementations, amounts and work as decimal strings, identifiers as prefixed or plain lower-case hex, payloads as base64, times in RFC 3339, absent optional members left out, policies and resolutions tagged by their type.",
  "every value of every JSON type that serialises",
  "A wrong or swapped member name on both sides still round-trips on every test value.",
  "sia/src/types/common.rs", "sia/src/types/v1.rs", "sia/src/types/v2.rs", "sia/src/types/spendpolicy.rs", "sia/src/consensus.rs", "sia/src/types/utils.rs")
p("Which JSON documents are accepted",
  "A document is accepted as a value exactly when its members, in any order and among members of other names, are the members of the type with each one accepted as its part: a missing or repeated member is an error, a member that may be absent has its default, and unknown members are ignored. A JSON array of the parts in order is accepted too.",
  "every JSON document and every JSON type",
  "All documents: orders, repetitions, unknown names, wrong kinds.",
  "sia/src/types/common.rs", "sia/src/types/v1.rs", "sia/src/types/v2.rs", "sia/src/types/spendpolicy.rs: Deserialize for SpendPolicy", "sia/src/consensus.rs")

p("The built-in networks",
  "Mainnet, Zen and Anagami have their published parameters, with valid address checksums. On mainnet block n pays 300000 - n siacoins down to 30000, so the coins mined up to any block follow a closed formula; the test networks always pay 300000. The Foundation is paid in its first block and every 4380 blocks after it and never otherwise, outputs mature after 144 blocks, and the replay prefix and nonce factor change exactly at the hardforks. None of these panics.",
  "every chain state of the three networks",
  "Every height, in both build profiles.",
  "sia/src/consensus.rs: Network::{mainnet, zen, anagami}, ChainState")

p("Derived codecs cover every field",
  "A codec derived for a struct writes the fields of the struct in declaration order and reads them in the same order, so values whose fields survive their encodings survive and different values have different encodings. Enums and unions are rejected when the program is compiled. The codecs of the library's own structs are the derived ones.",
  "every struct declaration (named, tuple and unit structs, any number of fields, any visibility) and every implementation of the traits for the field types",
  "A test derives a few structs; the macro is used on every one.",
  "sia_derive/src/lib.rs", "sia/src/encoding.rs")

p("JSON texts",
  "to_string and to_string_pretty write UTF-8 text in the JSON grammar for every value that serialises, to_string the shortest such text and to_string_pretty the same text in lines indented by two spaces for each open bracket, and fail only when memory cannot hold it. from_str reads every text of a document the same way, whatever its spacing, escapes and order of members, gives the value back that was written, and rejects everything that is not one JSON document nested less than 128 levels deep; only in members the type does not know may the nesting be deeper and surrogates be unpaired.",
  "every value of every JSON type and every byte string",
  "All texts: escapes, surrogates, numbers at the 64-bit bounds, nesting, truncation.",
  "sia/src/types/common.rs", "sia/src/types/v1.rs", "sia/src/types/v2.rs", "sia/src/types/spendpolicy.rs", "sia/src/types/utils.rs", "Cargo.lock: serde_json 1.0.134")

p("Constructors with a rule of their own",
  "The standard unlock conditions of a public key have no timelock, that ed25519 key and one required signature; their address is the documented tree of hashes and different keys have different addresses unless the hash function collides. A public key and the unlock key made from it have the same text. The threshold constructor keeps its arguments and refuses exactly the lists with unlock conditions among the policies, so that no threshold has unlock conditions directly below it.",
  "every public key, every count and list of policies, every byte string decoded as a policy",
  "All keys and lists; that no other way leads to a refused threshold is a statement about every input of the decoder.",
  "sia/src/types/v1.rs: UnlockConditions::standard_unlock_conditions, From<PublicKey> for UnlockKey", "sia/src/types/spendpolicy.rs: SpendPolicy::threshold")

p("Conversions, defaults and constants",
  "A chain index prints as height, colon and hexadecimal block ID, and different indices print differently. An amount converts to a 64-bit number exactly when it fits, and amounts compare as numbers. Work is made from big-endian bytes and encodes as them. An address is made from exactly 32 bytes. Defaults are zero, the policy constructors make the policy they are named after, and the covered fields for a whole transaction cover nothing else.",
  "every chain index, amount, byte slice, work and policy argument",
  "All values.",
  "sia/src/types/common.rs: Display for ChainIndex, From<&[u8]> for Address", "sia/src/types/currency.rs: TryInto<u64>, Ord", "sia/src/types/work.rs: From<&[u8; 32]>", "sia/src/types/spendpolicy.rs: SpendPolicy::{above, after, public_key, hash, unlock_conditions}", "sia/src/types/v1.rs: CoveredFields::whole_transaction", "sia/src/consensus.rs: ChainState::{siafund_count, ancestor_depth, max_block_weight}")

p("Memory asked for by untrusted bytes",
  "Decoding asks the allocator for an amount bounded by a fixed multiple of the input's length: at most 16 bytes for each byte of accepted input, at most one request per three bytes, none at all for types of fixed size. Rejected input must not cost more than that either.",
  "every byte string, every decoder of the library",
  "The largest request over all inputs; length prefixes that promise more than follows, at every depth of nesting.",
  "sia/src/encoding/v2.rs: Vec<T>, String", "sia/src/encoding/v1.rs: Vec<T>, String", "sia/src/types/spendpolicy.rs: decode_policy")

p("The language every decoder accepts",
  "For every type of either wire format the accepted byte strings are exactly those of a written grammar, each standing for one value: the layout the encoder writes, except that integers below 64 bits ignore their high bytes, v1 amounts allow leading zeros up to sixteen bytes, the siafund claim start is dropped, and v2 transactions may announce empty sections and set unknown bits. Everything the encoder writes is in the grammar, and no accepted string is a prefix of another.",
  "every byte string, every type of the wire formats, every chain state in either build profile",
  "That nothing else is accepted is a statement about all byte strings.",
  "sia/src/encoding/v1.rs", "sia/src/encoding/v2.rs", "sia/src/types/v1.rs", "sia/src/types/v2.rs: Transaction", "sia/src/consensus.rs: State")

p("Values in binary serde formats",
  "A value serialised with a serde format that is not human readable, such as CBOR or MessagePack, is deserialised to the same value by that format, for every type that has serde implementations.",
  "every value of every serde type and every self-describing format that is not human readable",
  "All values; the repository tests JSON only, and the two branches on the kind of format are never run together.",
  "sia/src/macros.rs: impl_hash_id", "sia/src/types/v1.rs: Serialize and Deserialize for UnlockKey", "sia/src/types/spendpolicy.rs: Serialize for SpendPolicy", "sia/src/types/v2.rs: FileContractResolution", "sia/src/consensus.rs: ElementAccumulator")

p("What every decoder does with every input",
  "For every type of either wire format, every byte string is accepted, refused or stops the thread exactly as written down: which strings are accepted, which error is returned for the others, on which strings the input counts as too short, and which panics occur on what. Allocation fails only at eight bytes denoting at least 2^52 in a transaction or block, and a block's timestamp stops the thread exactly if it lies outside the years -9999 to 9999.",
  "every byte string, every type of the wire formats, every chain state in either build profile",
  "The errors and panics over all inputs, at every position and depth of nesting.",
  "sia/src/encoding/v1.rs", "sia/src/encoding/v2.rs", "sia/src/types/v1.rs", "sia/src/types/v2.rs", "sia/src/types/spendpolicy.rs", "sia/src/consensus.rs")

p("Secrets do not leak",
  "Formatting a private key for debugging tells no more than its public key. Dropping a seed or private key overwrites all of its bytes and nothing else, and once every seed and key a program made has been dropped, no memory the library used for them still holds any of their bytes.",
  "every key, every history of making, cloning, moving, deriving, signing with and dropping seeds and keys",
  "All histories; tests cannot look at memory that is no longer a value's.",
  "sia/src/signing.rs: PrivateKey, Debug, Clone, Drop, sign_hash", "sia/src/seed.rs: Seed, Drop, private_key")

p("Work of decoding untrusted bytes",
  "Decoding turns to its reader at most once for every byte of the input and once more, whatever lengths the input promises; accepted input takes at most one read for every byte used, however much follows. Reads and requests for memory together are at most four for every three bytes, and one.",
  "every byte string, every decoder of the library, every depth of stack",
  "The longest run over all inputs; loops are bounded by numbers the input chooses.",
  "sia/src/encoding/v2.rs: Vec<T>, String", "sia/src/encoding/v1.rs: Vec<T>, String", "sia/src/types/spendpolicy.rs: decode_policy", "sia/src/types/v2.rs: Transaction", "sia/src/consensus.rs: State")

p("Stack needed for nested policies",
  "A spend policy that was decoded, read from JSON or built by hand can be encoded, hashed to its address and dropped without exhausting the stack, whatever its nesting.",
  "every spend policy and every stack; every byte string and text it was read from",
  "All depths of nesting; the tests nest three deep.",
  "sia/src/types/spendpolicy.rs: SpendPolicy::{encode, address}")

p("Work of spend policies in JSON",
  "Writing a spend policy as JSON and reading it from a text take work proportional to the size of the document, counted in JSON values that are built.",
  "every spend policy, every JSON text",
  "All widths and depths; cost is not observed by tests.",
  "sia/src/types/spendpolicy.rs: Serialize and Deserialize for SpendPolicy")

p("Errors of rejected texts",
  "When the text of a hash, ID, address, leaf, signature, unlock key or amount is rejected, the error says why: a wrong length, a missing prefix, a wrong checksum, the first character that is not a digit with its position, the unknown unit, or the malformed part of the amount. Each error is given exactly for the texts it describes.",
  "every input string, both build profiles",
  "All strings, and several faults in one text; the tests pin a few errors.",
  "sia/src/macros.rs: impl_hash_id", "sia/src/types/common.rs: HexParseError, Address, Leaf", "sia/src/signing.rs: Signature", "sia/src/types/v1.rs: UnlockKey", "sia/src/types/currency.rs: CurrencyParseError")

p("Timestamps with an offset from UTC",
  "A timestamp in JSON may give its local time and an offset from UTC. Exactly the texts of RFC 3339, with any one character between date and time, offsets up to 25:59, further digits of the fraction dropped and the 61st second only at the end of a month in UTC, are read, as the time they say. What is written is read back with the same offset, and every timestamp that was read can be written again. The binary encoding has the instant in whole seconds, and can be decoded.",
  "every text, every local time, fraction and offset",
  "All offsets, leap seconds and ends of the year range; the tests only use UTC.",
  "sia/src/types/common.rs: Block", "sia/src/consensus.rs: State, HardforkOak", "sia/src/types/utils.rs: timestamp_array", "sia/src/encoding/v2.rs: OffsetDateTime")

p("A signature is a signature for one message",
  "Two messages for which one signature verifies under a key made from a seed are the same message: the same kind of object (v1 transaction, attestation, contract, renewal, v2 transaction), with the same content apart from signatures, for the same replay prefix, unless BLAKE2b-256 or the challenge hash of the signature collides. In particular a signature of a v1 transaction is not one in v2. A wallet restored from its recovery phrase makes signatures that verify under the keys of the wallet before.",
  "all seeds, signatures, pairs of messages and chain states",
  "Tests compare a few hashes and verify a few signatures; whether any two of all messages share their signed bytes, across versions and object kinds, is a statement about all pairs.",
  "sia/src/types/v1.rs: whole_sig_hash, partial_sig_hash", "sia/src/types/v2.rs: sig_hash, input_sig_hash", "sia/src/signing.rs: PublicKey::verify, PrivateKey::sign_hash", "sia/src/seed.rs: Seed")

p("What becomes of a peer's transaction as JSON",
  "A transaction or block that was accepted from the wire can be written as JSON and read back. Where this fails, the names of the algorithms in its unlock keys say how: if all are UTF-8 without a colon (up to trailing zeros) the transaction survives, if all are UTF-8 but one has a colon it is written but no reader of the library accepts the document, in whatever order its members are, and if one is not UTF-8 writing panics.",
  "every byte string that decodes, every transaction, block and policy, both build profiles",
  "All transactions a peer may send; the tests only serialise transactions with ed25519 keys.",
  "sia/src/types/v1.rs: UnlockKey, Transaction", "sia/src/types/specifier.rs: Specifier", "sia/src/types/v2.rs: Transaction", "sia/src/types/common.rs: Block", "sia/src/types/spendpolicy.rs: SpendPolicy")

p("What is read from JSON can be written again and sent",
  "A transaction, block or spend policy that was read from JSON text can be written as JSON text again, which is then read as the same value, and the bytes sent to a peer are read as the same value. (Refuted in three corners: a key whose algorithm name is cut in the middle of a character makes writing panic; thresholds with more than 255 children and block times with fractions of a second do not survive the wire. Nothing else goes wrong; in particular writing never nests more deeply than what was read, so the depth limit of the parser is never hit by the library's own output.)",
  "every text and every value read from it, for all types of the library; every stack of the reader and of the peer; all bytes following on the wire",
  "The exceptions depend on the nesting, on the widths of thresholds at every level and on the position of character boundaries; tests on a few documents cannot show that there are no others.",
  "sia/src/types/v1.rs: UnlockKey, Transaction", "sia/src/types/specifier.rs: Specifier", "sia/src/types/v2.rs: Transaction", "sia/src/types/common.rs: Block", "sia/src/types/spendpolicy.rs: SpendPolicy")

out = os.path.join(os.path.dirname(os.path.abspath(__file__)), "..", "properties.jsonl")
with open(out, "w") as f:
    for x in P: f.write(json.dumps(x) + "\n")
print(len(P))
