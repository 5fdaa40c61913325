{"id": "C01", "title": "v2 wire round trip", "statement": "Decoding the v2 (Sia) encoding of a value yields exactly that value and leaves the reader positioned exactly after it, whatever bytes follow, for every v2-encodable type up to and including a whole v2 transaction.", "quantifier": "every value the format has room for of every type with the v2 encoding (whole-second timestamps, durations from 0 to 2^63-1 ns, at most 255 sub-policies per threshold, nesting within the stack), every sequence of trailing bytes", "why_tests_cant": "A unit test checks single vectors; the value space (nested policies, variable length proofs, optional fields) is infinite.", "anchors": ["sia/src/encoding/v2.rs: SiaEncodable, SiaDecodable", "sia/src/types/v2.rs: Transaction", "sia/src/types/spendpolicy.rs: SpendPolicy", "sia_derive/src/lib.rs"]}
{"id": "C02", "title": "v1 wire round trip", "statement": "Decoding the v1 encoding of a value yields exactly that value and consumes exactly the bytes that were written, for every v1-encodable type including whole v1 transactions and blocks.", "quantifier": "every value of every type with the v1 encoding (block timestamps in whole seconds), every sequence of trailing bytes", "why_tests_cant": "Infinite value space; nested vectors of structures.", "anchors": ["sia/src/encoding/v1.rs: V1SiaEncodable, V1SiaDecodable", "sia/src/types/v1.rs: Transaction", "sia/src/types/common.rs: Block"]}
{"id": "C03", "title": "Encodings are unambiguous", "statement": "Two different values of the same type never have encodings where one is a prefix of the other; in particular equal encodings mean equal values, and concatenated encodings can be split in only one way.", "quantifier": "every pair of representable values (as in C01, C02) and every pair of trailing byte strings", "why_tests_cant": "A statement about all pairs of values.", "anchors": ["sia/src/encoding/v1.rs", "sia/src/encoding/v2.rs", "sia/src/types/v1.rs", "sia/src/types/v2.rs"]}
{"id": "C04", "title": "Truncated input is rejected", "statement": "If the input ends before the encoding of a value is complete, decode returns an error: it never returns a value and never panics, wherever the cut is.", "quantifier": "every representable value (as in C01, C02), every strict prefix of its encoding (every truncation point)", "why_tests_cant": "Every truncation point of every value.", "anchors": ["sia/src/encoding/v2.rs: decode impls", "sia/src/encoding/v1.rs: decode impls"]}
{"id": "C05", "title": "Decode is independent of read chunking", "statement": "The result of decode depends only on the bytes delivered by the reader, not on how the reader splits them into short reads or on interrupted reads; if the reader fails, decode either already has its result or returns an error.", "quantifier": "every input, every schedule of short reads, interruptions and reader failures", "why_tests_cant": "There are exponentially many read schedules per input.", "anchors": ["sia/src/encoding/v1.rs", "sia/src/encoding/v2.rs"]}
{"id": "C06", "title": "Encode into a failing writer", "statement": "encode into any writer writes exactly the encoding when the writer accepts everything, independent of short writes and interruptions; if the writer fails after any number of bytes, what was written is a prefix of the encoding and encode returns the error instead of panicking.", "quantifier": "every value of every wire type other than the chain state (C52), every short-write schedule, every failure point of the writer", "why_tests_cant": "Every failure point of every value.", "anchors": ["sia/src/encoding/v2.rs", "sia/src/consensus.rs: State::encode"]}
{"id": "C07", "title": "Decoding untrusted bytes does not panic", "statement": "decode on arbitrary bytes returns a value or an error; it never panics or aborts the process.", "quantifier": "every byte string, every decodable type", "why_tests_cant": "Attacker-chosen inputs; a fuzzer samples, it cannot settle.", "anchors": ["sia/src/encoding/v2.rs: Vec, OffsetDateTime, Duration", "sia/src/encoding/v1.rs", "sia/src/consensus.rs: State", "sia/src/types/common.rs: Block"]}
{"id": "C08", "title": "Decode accepts only canonical encodings", "statement": "If decode accepts a byte string as a value, re-encoding the value gives back exactly the consumed bytes, so no two byte strings are encodings of the same value.", "quantifier": "every byte string accepted by decode", "why_tests_cant": "Ranges over every accepted byte string.", "anchors": ["sia/src/encoding/v1.rs", "sia/src/encoding/v2.rs", "sia/src/types/currency.rs: V1SiaDecodable", "sia/src/types/v2.rs: Transaction::decode", "sia/src/types/common.rs: SiafundOutput"]}
{"id": "C09", "title": "Integers: fixed little-endian layout", "statement": "Every integer type other than u8 is encoded as 8 bytes holding its value (sign-extended for signed types) in little-endian order, decode recovers every value of the type, and out-of-range encodings are rejected.", "quantifier": "every value of u16, u32, u64, usize, i16, i32, i64 and every 8-byte string", "why_tests_cant": "2^64 values per type.", "anchors": ["sia/src/encoding/v1.rs: impl_sia_numeric", "sia/src/encoding/v2.rs: impl_sia_numeric"]}
{"id": "C10", "title": "Booleans, options and strings are strict", "statement": "Decoding a bool (or an Option tag) accepts only bytes 0 and 1; decoding a String accepts exactly the valid UTF-8 byte strings, and every other byte string gives an error.", "quantifier": "every tag byte and every payload", "why_tests_cant": "All byte strings; UTF-8 validity has many boundary cases.", "anchors": ["sia/src/encoding/v2.rs: bool, Option, String", "sia/src/encoding/v1.rs"]}
{"id": "C11", "title": "v1 currency encoding is minimal and bounded", "statement": "The v1 encoding of a currency amount is a length prefix followed by the amount in big-endian without leading zero bytes; decode accepts at most 16 value bytes and never yields an amount other than the big-endian value of those bytes.", "quantifier": "every u128 amount and every byte string", "why_tests_cant": "2^128 amounts.", "anchors": ["sia/src/types/currency.rs: V1SiaEncodable, V1SiaDecodable for Currency"]}
{"id": "C12", "title": "Durations survive encoding", "statement": "A duration survives the binary encoding unchanged; a binary value that is not a representable duration is rejected.", "quantifier": "every duration from 0 to 2^63-1 nanoseconds and every 8-byte string", "why_tests_cant": "All nanosecond counts, including negative and very large ones.", "anchors": ["sia/src/encoding/v2.rs: Duration"]}
{"id": "C13", "title": "Timestamps survive encoding", "statement": "A timestamp survives the binary encoding unchanged, and an encoded timestamp outside the representable range is rejected with an error.", "quantifier": "every timestamp value and every 8-byte string", "why_tests_cant": "All i64 second counts and sub-second parts.", "anchors": ["sia/src/encoding/v2.rs: OffsetDateTime"]}
{"id": "C14", "title": "Currency text round trip", "statement": "Parsing the decimal text of an amount (as printed by to_string and as used in JSON) yields the same amount for every amount.", "quantifier": "every u128 amount", "why_tests_cant": "2^128 amounts.", "anchors": ["sia/src/types/currency.rs: Currency::parse_string, Serialize, Deserialize"]}
{"id": "C15", "title": "Currency parsing is exact", "statement": "Parsing '<integer>[.<fraction>][ ]<unit>' yields exactly the denoted amount of hastings, or an error when the text is malformed or the amount is not representable (too large or finer than one hasting); it never panics and never yields a wrong amount.", "quantifier": "every input string and both build profiles (overflow checks on or off)", "why_tests_cant": "All strings: digit counts, units, overflow boundaries.", "anchors": ["sia/src/types/currency.rs: Currency::parse_string, parse_scalar"]}
{"id": "C16", "title": "Currency arithmetic never silently wraps", "statement": "checked_add/sub/mul/div return the exact result or None exactly when it is not representable; the operators +, -, *, /, sum give the exact result or panic and never produce a wrapped amount.", "quantifier": "every pair of amounts, every list of amounts, both build profiles", "why_tests_cant": "2^256 pairs.", "anchors": ["sia/src/types/currency.rs: Add, Sub, Mul, Div, Rem, Sum, checked_*"]}
{"id": "C17", "title": "Hash and ID text form", "statement": "Printing any 32-byte hash or ID and parsing the text gives the same value; parse accepts exactly 64 hexadecimal digits, optionally after a prefix that ends in a colon, and yields the bytes they denote.", "quantifier": "every 32-byte value and every input string", "why_tests_cant": "2^256 values; all strings.", "anchors": ["sia/src/macros.rs: impl_hash_id", "sia/src/types/common.rs: Hash256"]}
{"id": "C18", "title": "Address text form and checksum", "statement": "Printing an address and parsing it gives the same address; parse accepts a string only if it is exactly the printed form of some address (up to letter case), so any change of the text that is not a case change yields an error or a text whose checksum genuinely matches its address bytes.", "quantifier": "every address and every input string", "why_tests_cant": "2^256 addresses and all strings.", "anchors": ["sia/src/types/common.rs: Address::parse_string, Display"]}
{"id": "C19", "title": "Compile-time literals agree with run-time parsing", "statement": "The address!, hash_256!/ID and public_key! literal macros yield the same value as run-time parsing for every text run-time parsing accepts, and reject (fail to compile) everything run-time parsing rejects.", "quantifier": "every literal string", "why_tests_cant": "All strings.", "anchors": ["sia/src/macros.rs: decode_hex_256, decode_hex_pair, decode_hex_char, address!, public_key!"]}
{"id": "C20", "title": "Specifier text form", "statement": "Converting a text of at most 16 bytes to a specifier and printing it returns the text, and distinct texts give distinct specifiers; printing any specifier and converting back returns the specifier.", "quantifier": "every specifier and every text", "why_tests_cant": "2^128 specifiers.", "anchors": ["sia/src/types/specifier.rs: Specifier"]}
{"id": "C21", "title": "Unlock key text form", "statement": "Printing an unlock key and parsing the text gives the same unlock key, for every unlock key that can be decoded from the wire; printing never panics.", "quantifier": "every unlock key (any algorithm specifier, any key bytes)", "why_tests_cant": "All algorithm specifiers, including non-UTF-8 and those containing a colon.", "anchors": ["sia/src/types/v1.rs: UnlockKey::parse_string, Display"]}
{"id": "C22", "title": "Keys, signatures and work: text forms", "statement": "Public keys ('ed25519:'-prefixed hex), signatures (hex) and work (decimal) survive their text forms, and parse rejects wrong lengths, wrong prefixes and non-digits.", "quantifier": "every key, signature, work value, and every input string", "why_tests_cant": "2^256 and 2^512 value spaces.", "anchors": ["sia/src/signing.rs: PublicKey, Signature", "sia/src/types/work.rs: Work"]}
{"id": "C23", "title": "Merkle accumulator computes the Merkle root", "statement": "After adding any sequence of leaves, the accumulator's root is the Merkle tree root of the sequence (leaf order preserved, split at the largest power of two), and is therefore sensitive to every leaf.", "quantifier": "every sequence of leaf hashes of any length", "why_tests_cant": "All sequence lengths; the carry chain shows up only from 4 leaves on.", "anchors": ["sia/src/merkle.rs: Accumulator::add_leaf, root"]}
{"id": "C24", "title": "Unlock-condition address commits to all conditions", "statement": "Two different unlock conditions (timelock, ordered public keys, required signatures) have different addresses unless the hash function collides.", "quantifier": "every pair of unlock conditions with any number of keys", "why_tests_cant": "All pairs of structures with arbitrarily many keys.", "anchors": ["sia/src/types/v1.rs: UnlockConditions::address", "sia/src/merkle.rs"]}
{"id": "C25", "title": "Sector root commits to the whole sector", "statement": "The sector root is the Merkle root of the sector's 64-byte segments in order, so two different sectors have different roots unless the hash collides, and the result does not depend on how the parallel loops are scheduled.", "quantifier": "every 4 MiB sector and every schedule of the parallel loops", "why_tests_cant": "2^(2^25) sectors; all schedules.", "anchors": ["sia/src/rhp.rs: sector_root"]}
{"id": "C26", "title": "Spend policy address is invariant under opaque redaction", "statement": "Replacing any sub-policy of a policy, at any depth, by the opaque policy of its address leaves the policy's address unchanged.", "quantifier": "every policy, every position in it", "why_tests_cant": "Recursive structure of unbounded depth.", "anchors": ["sia/src/types/spendpolicy.rs: SpendPolicy::address"]}
{"id": "C27", "title": "Spend policy address binds the policy", "statement": "Two policies with the same address are equal up to opaque redaction of sub-policies, unless the hash function collides.", "quantifier": "every pair of policies", "why_tests_cant": "All pairs of recursive structures.", "anchors": ["sia/src/types/spendpolicy.rs: SpendPolicy::address, encode"]}
{"id": "C28", "title": "Spend policy wire round trip", "statement": "Every spend policy that the API can construct encodes to bytes that decode to the same policy, and decode rejects unknown versions and unknown policy types.", "quantifier": "every policy, of every depth and width", "why_tests_cant": "Unbounded width and depth; the width byte overflows only at 256 children.", "anchors": ["sia/src/types/spendpolicy.rs: encode, decode, encode_policy, decode_policy"]}
{"id": "C29", "title": "Bounded resource use when decoding policies", "statement": "Decoding a spend policy of any input uses a bounded number of nested calls.", "quantifier": "every input byte string", "why_tests_cant": "All inputs; the depth is attacker-chosen.", "anchors": ["sia/src/types/spendpolicy.rs: decode_policy"]}
{"id": "C30", "title": "Block reward schedule", "statement": "The block reward at every height is the initial coinbase minus one siacoin per block, but never below the minimum coinbase; it never increases with height.", "quantifier": "every height up to 340282366920937 (beyond, one siacoin per block is more than 128 bits) and every network parameter set", "why_tests_cant": "Billions of heights and all parameter sets.", "anchors": ["sia/src/consensus.rs: ChainState::block_reward", "sia/src/types/currency.rs: Currency::siacoins"]}
{"id": "C31", "title": "Foundation subsidy schedule", "statement": "A foundation subsidy is paid exactly at the foundation hardfork height and every blocks_per_month after it and never otherwise; each payment equals the per-block subsidy times the number of blocks it covers, and is paid to the state's foundation address; the computation never panics.", "quantifier": "every chain state and network", "why_tests_cant": "All heights and all network parameters.", "anchors": ["sia/src/consensus.rs: ChainState::foundation_subsidy, blocks_per_month"]}
{"id": "C32", "title": "Replay prefix and nonce factor follow the hardforks", "statement": "The replay prefix identifies the latest activated replay-protecting hardfork, is constant between hardforks, and differs across each hardfork; the nonce factor changes exactly at the ASIC hardfork.", "quantifier": "every height and every ordered set of hardfork heights", "why_tests_cant": "All heights and networks.", "anchors": ["sia/src/consensus.rs: ChainState::replay_prefix, nonce_factor"]}
{"id": "C33", "title": "Maturity and child height", "statement": "The child height is one more than the current height and outputs mature exactly maturity_delay blocks after the child block; both are strictly increasing in the height.", "quantifier": "every chain state whose child and maturity heights are below 2^64", "why_tests_cant": "All heights up to the top of the u64 range.", "anchors": ["sia/src/consensus.rs: ChainState::maturity_height, child_height", "sia/src/types/common.rs: ChainIndex"]}
{"id": "C34", "title": "v1 file contract tax", "statement": "The v1 contract tax is a multiple of the siafund count (10000), never exceeds 3.9% of the payout, differs from 3.9% by less than 10000 hastings after the tax hardfork, never panics, and is monotone in the payout.", "quantifier": "every payout and every height below 2^64 - 1", "why_tests_cant": "2^128 payouts, with a floating-point constant before the fork.", "anchors": ["sia/src/types/v1.rs: FileContract::tax", "sia/src/consensus.rs: siafund_count"]}
{"id": "C35", "title": "v2 file contract tax", "statement": "The v2 contract tax is a multiple of 10000, at most 4% of renter plus host payout and within 10000 hastings of it, for every contract; it never panics or wraps.", "quantifier": "every contract, both build profiles", "why_tests_cant": "2^256 pairs of outputs.", "anchors": ["sia/src/types/v2.rs: FileContract::tax"]}
{"id": "C36", "title": "Identifier derivations are domain separated", "statement": "Two identifiers derived by any two of the derivation functions (v1/v2 siacoin, siafund, contract, attestation, claim, proof, renewal, miner and foundation outputs) from different arguments are different unless the hash function collides.", "quantifier": "every pair of derivations and arguments", "why_tests_cant": "All pairs of derivation kinds, parents and indices.", "anchors": ["sia/src/types/common.rs: SiafundOutputID, BlockID, TransactionID, FileContractID", "sia/src/types/v1.rs: Transaction::derive_child_id"]}
{"id": "C37", "title": "v1 transaction ID ignores signatures and binds everything else", "statement": "The v1 transaction ID and its child output IDs do not change when signatures are added, removed or changed, and two transactions that differ in anything else have different IDs unless the hash function collides.", "quantifier": "every pair of v1 transactions", "why_tests_cant": "All pairs of transactions.", "anchors": ["sia/src/types/v1.rs: Transaction::id, encode_no_sigs, siacoin_output_id, siafund_output_id, file_contract_id"]}
{"id": "C38", "title": "v1 whole-transaction signature hash", "statement": "The whole-transaction signature hash binds every non-signature part of the transaction, the parent ID, key index and timelock, and the replay prefix: different inputs give different hashes unless the hash function collides; it does not depend on the transaction's signatures.", "quantifier": "every pair of transactions, signature parameters and chain states", "why_tests_cant": "All pairs of transactions and hardfork states.", "anchors": ["sia/src/types/v1.rs: Transaction::whole_sig_hash"]}
{"id": "C39", "title": "v1 partial signature hash", "statement": "The partial signature hash fails with an error exactly when a covered index is out of range and otherwise depends only on the covered elements; it binds the covered elements: different covered content gives a different hash unless the hash function collides.", "quantifier": "every transaction and every covered-fields value", "why_tests_cant": "All index lists, including out-of-range, repeated and empty ones.", "anchors": ["sia/src/types/v1.rs: Transaction::partial_sig_hash, CoveredFields"]}
{"id": "C40", "title": "v2 transaction ID and input signature hash bind the transaction", "statement": "The v2 transaction ID and input signature hash do not change when witness data (satisfied policies, Merkle proofs, contract signatures) changes, and bind everything else: two transactions that differ in non-witness data have different IDs and signature hashes unless the hash function collides.", "quantifier": "every pair of v2 transactions", "why_tests_cant": "All pairs of transactions.", "anchors": ["sia/src/types/v2.rs: Transaction::encode_semantics, id, input_sig_hash"]}
{"id": "C41", "title": "v2 signature hashes are domain separated and replay protected", "statement": "The signature hashes of attestations, contracts, contract renewals and transaction inputs never coincide across kinds or across different replay prefixes unless the hash function collides.", "quantifier": "every pair of signed objects and chain states", "why_tests_cant": "All pairs of signable objects.", "anchors": ["sia/src/types/v2.rs: sig_hash functions, input_sig_hash", "sia/src/consensus.rs: replay_prefix"]}
{"id": "C42", "title": "Contract, renewal and attestation signature hashes", "statement": "A contract's (renewal's, attestation's) signature hash ignores exactly the signatures it is meant to be signed by, and binds every other field.", "quantifier": "every pair of contracts, renewals or attestations", "why_tests_cant": "All pairs of structures.", "anchors": ["sia/src/types/v2.rs: FileContract::sig_hash, FileContractRenewal::sig_hash, Attestation::sig_hash"]}
{"id": "C43", "title": "Element accumulator encoding", "statement": "An element accumulator encodes its leaf count followed by exactly the roots of the trees present (one per set bit, lowest first); decoding gives back the leaf count and every present root, with absent trees zero (so an accumulator whose absent trees are zero is recovered, and only such are decoded); the JSON form lists the same roots, is read as the same accumulator, and is rejected when the number of trees does not match the leaf count.", "quantifier": "every accumulator, every byte string, every JSON tree list", "why_tests_cant": "2^64 leaf counts.", "anchors": ["sia/src/consensus.rs: ElementAccumulator"]}
{"id": "C44", "title": "Chain state encoding", "statement": "A chain state encodes and decodes to the same state for every height, storing exactly min(height+1, 11) previous timestamps.", "quantifier": "every state", "why_tests_cant": "All heights including u64::MAX.", "anchors": ["sia/src/consensus.rs: State"]}
{"id": "C45", "title": "v2 transaction field bitmap", "statement": "In the v2 transaction encoding each optional section is present exactly when it is non-empty and this is what the bitmap says; an empty transaction is the version byte and a zero bitmap; decode rejects other versions and unknown sections.", "quantifier": "every v2 transaction and every byte string", "why_tests_cant": "2^11 presence combinations times all contents.", "anchors": ["sia/src/types/v2.rs: Transaction encode/decode"]}
{"id": "C46", "title": "Contract resolution tags", "statement": "A contract resolution decodes to the same kind it was encoded as, and an unknown kind is rejected.", "quantifier": "every resolution and every tag byte", "why_tests_cant": "All resolutions and bytes.", "anchors": ["sia/src/types/v2.rs: FileContractResolution, ContractResolution"]}
{"id": "C47", "title": "Seeds and derived keys", "statement": "Keys derived from a seed at different indices come from different hash inputs, derivation is the same for a seed restored from its recovery phrase, and every 16-byte seed survives its recovery phrase.", "quantifier": "every seed and every pair of indices", "why_tests_cant": "2^128 seeds and 2^64 indices.", "anchors": ["sia/src/seed.rs: Seed"]}
{"id": "C48", "title": "Sign and verify", "statement": "A signature made with a private key verifies under its public key for that hash, and verify returns a boolean for every public key and signature (never panics).", "quantifier": "every private key, hash, public key and signature bytes", "why_tests_cant": "All keys and messages, including public keys that are not curve points.", "anchors": ["sia/src/signing.rs: PublicKey::verify, PrivateKey::sign_hash, from_seed, public_key"]}
{"id": "C49", "title": "JSON round trips", "statement": "Serialising any value to JSON and deserialising it gives the same value for every JSON-enabled type, in particular spend policies of any depth, covered fields with omitted empty lists, transactions and accumulators.", "quantifier": "every value of every JSON-enabled type", "why_tests_cant": "Infinite value space.", "anchors": ["sia/src/types/spendpolicy.rs: Serialize, Deserialize", "sia/src/types/v1.rs: CoveredFields, Transaction", "sia/src/types/v2.rs", "sia/src/types/utils.rs"]}
{"id": "C50", "title": "Base64 payloads", "statement": "Binary payloads carried as base64 in JSON decode to the same bytes, and text that is not canonical base64 is rejected.", "quantifier": "every byte string and every text", "why_tests_cant": "All byte strings.", "anchors": ["sia/src/types/utils.rs: base64, vec_base64"]}
{"id": "C51", "title": "Timestamp arrays in JSON", "statement": "A list of at most eleven timestamps deserialises to an eleven-element array with the given timestamps first; longer lists are rejected; arrays of timestamps that RFC 3339 can express (years 0 to 9999) are read back unchanged, and others are an error when serialising.", "quantifier": "every list of timestamps", "why_tests_cant": "All lengths.", "anchors": ["sia/src/types/utils.rs: timestamp_array"]}
{"id": "C52", "title": "Chain state into a failing writer", "statement": "Encoding a chain state into a writer that fails after any number of bytes returns the error instead of panicking.", "quantifier": "every chain state, every short-write schedule, every failure point of the writer", "why_tests_cant": "Every failure point of every value.", "anchors": ["sia/src/consensus.rs: SiaEncodable for State"]}
{"id": "C53", "title": "The wire layout of every type", "statement": "Every value is written as the documented sequence of fields: integers in eight little-endian bytes, v2 amounts in sixteen, v1 amounts as a length and the significant big-endian bytes, sequences with a count, options with a flag, v2 transactions as version, bitmap and present sections, chain states with the timestamps so far. These bytes are what other Sia implementations read; they are decoded to the value.", "quantifier": "every value of every wire type in v1 and v2, the chain state below the highest height", "why_tests_cant": "Both sides of a codec can be wrong in the same way and still round-trip on every test value.", "anchors": ["sia/src/encoding/v1.rs", "sia/src/encoding/v2.rs", "sia/src/types/common.rs", "sia/src/types/v1.rs", "sia/src/types/v2.rs", "sia/src/types/spendpolicy.rs", "sia/src/types/work.rs", "sia/src/consensus.rs: State, ElementAccumulator"]}
{"id": "C54", "title": "What every identifier, signature hash and address is the hash of", "statement": "Each identifier, each hash that is signed and each address is BLAKE2b-256 of a fixed byte string: prefix or specifier, replay prefix where there is one, and the layouts of the fields it covers, with signatures zeroed or left out. Other Sia implementations compute the same values.", "quantifier": "every transaction, contract, attestation, policy, unlock conditions, chain state, index", "why_tests_cant": "A wrong prefix or an omitted field changes every value consistently; tests see a few values.", "anchors": ["sia/src/types/common.rs", "sia/src/types/v1.rs: Transaction::{id, whole_sig_hash, partial_sig_hash}, UnlockConditions::address", "sia/src/types/v2.rs: sig_hash, encode_semantics", "sia/src/types/spendpolicy.rs: address", "sia/src/consensus.rs: replay_prefix"]}
{"id": "C55", "title": "The JSON document of every type", "statement": "Every value is written as the documented JSON: the same member names as other Sia implementations, amounts and work as decimal strings, identifiers as prefixed or plain lower-case hex, payloads as base64, times in RFC 3339, absent optional members left out, policies and resolutions tagged by their type.", "quantifier": "every value of every JSON type that serialises", "why_tests_cant": "A wrong or swapped member name on both sides still round-trips on every test value.", "anchors": ["sia/src/types/common.rs", "sia/src/types/v1.rs", "sia/src/types/v2.rs", "sia/src/types/spendpolicy.rs", "sia/src/consensus.rs", "sia/src/types/utils.rs"]}
{"id": "C56", "title": "Which JSON documents are accepted", "statement": "A document is accepted as a value exactly when its members, in any order and among members of other names, are the members of the type with each one accepted as its part: a missing or repeated member is an error, a member that may be absent has its default, and unknown members are ignored. A JSON array of the parts in order is accepted too.", "quantifier": "every JSON document and every JSON type", "why_tests_cant": "All documents: orders, repetitions, unknown names, wrong kinds.", "anchors": ["sia/src/types/common.rs", "sia/src/types/v1.rs", "sia/src/types/v2.rs", "sia/src/types/spendpolicy.rs: Deserialize for SpendPolicy", "sia/src/consensus.rs"]}
{"id": "C57", "title": "The built-in networks", "statement": "Mainnet, Zen and Anagami have their published parameters, with valid address checksums. On mainnet block n pays 300000 - n siacoins down to 30000, so the coins mined up to any block follow a closed formula; the test networks always pay 300000. The Foundation is paid in its first block and every 4380 blocks after it and never otherwise, outputs mature after 144 blocks, and the replay prefix and nonce factor change exactly at the hardforks. None of these panics.", "quantifier": "every chain state of the three networks", "why_tests_cant": "Every height, in both build profiles.", "anchors": ["sia/src/consensus.rs: Network::{mainnet, zen, anagami}, ChainState"]}
{"id": "C58", "title": "Derived codecs cover every field", "statement": "A codec derived for a struct writes the fields of the struct in declaration order and reads them in the same order, so values whose fields survive their encodings survive and different values have different encodings. Enums and unions are rejected when the program is compiled. The codecs of the library's own structs are the derived ones.", "quantifier": "every struct declaration (named, tuple and unit structs, any number of fields, any visibility) and every implementation of the traits for the field types", "why_tests_cant": "A test derives a few structs; the macro is used on every one.", "anchors": ["sia_derive/src/lib.rs", "sia/src/encoding.rs"]}
{"id": "C59", "title": "JSON texts", "statement": "to_string and to_string_pretty write UTF-8 text in the JSON grammar for every value that serialises, to_string the shortest such text and to_string_pretty the same text in lines indented by two spaces for each open bracket, and fail only when memory cannot hold it. from_str reads every text of a document the same way, whatever its spacing, escapes and order of members, gives the value back that was written, and rejects everything that is not one JSON document nested less than 128 levels deep; only in members the type does not know may the nesting be deeper and surrogates be unpaired.", "quantifier": "every value of every JSON type and every byte string", "why_tests_cant": "All texts: escapes, surrogates, numbers at the 64-bit bounds, nesting, truncation.", "anchors": ["sia/src/types/common.rs", "sia/src/types/v1.rs", "sia/src/types/v2.rs", "sia/src/types/spendpolicy.rs", "sia/src/types/utils.rs", "Cargo.lock: serde_json 1.0.134"]}
{"id": "C60", "title": "Constructors with a rule of their own", "statement": "The standard unlock conditions of a public key have no timelock, that ed25519 key and one required signature; their address is the documented tree of hashes and different keys have different addresses unless the hash function collides. A public key and the unlock key made from it have the same text. The threshold constructor keeps its arguments and refuses exactly the lists with unlock conditions among the policies, so that no threshold has unlock conditions directly below it.", "quantifier": "every public key, every count and list of policies, every byte string decoded as a policy", "why_tests_cant": "All keys and lists; that no other way leads to a refused threshold is a statement about every input of the decoder.", "anchors": ["sia/src/types/v1.rs: UnlockConditions::standard_unlock_conditions, From<PublicKey> for UnlockKey", "sia/src/types/spendpolicy.rs: SpendPolicy::threshold"]}
{"id": "C61", "title": "Conversions, defaults and constants", "statement": "A chain index prints as height, colon and hexadecimal block ID, and different indices print differently. An amount converts to a 64-bit number exactly when it fits, and amounts compare as numbers. Work is made from big-endian bytes and encodes as them. An address is made from exactly 32 bytes. Defaults are zero, the policy constructors make the policy they are named after, and the covered fields for a whole transaction cover nothing else.", "quantifier": "every chain index, amount, byte slice, work and policy argument", "why_tests_cant": "All values.", "anchors": ["sia/src/types/common.rs: Display for ChainIndex, From<&[u8]> for Address", "sia/src/types/currency.rs: TryInto<u64>, Ord", "sia/src/types/work.rs: From<&[u8; 32]>", "sia/src/types/spendpolicy.rs: SpendPolicy::{above, after, public_key, hash, unlock_conditions}", "sia/src/types/v1.rs: CoveredFields::whole_transaction", "sia/src/consensus.rs: ChainState::{siafund_count, ancestor_depth, max_block_weight}"]}
{"id": "C62", "title": "Memory asked for by untrusted bytes", "statement": "Decoding asks the allocator for an amount bounded by a fixed multiple of the input's length: at most 16 bytes for each byte of accepted input, at most one request per three bytes, none at all for types of fixed size. Rejected input must not cost more than that either.", "quantifier": "every byte string, every decoder of the library", "why_tests_cant": "The largest request over all inputs; length prefixes that promise more than follows, at every depth of nesting.", "anchors": ["sia/src/encoding/v2.rs: Vec<T>, String", "sia/src/encoding/v1.rs: Vec<T>, String", "sia/src/types/spendpolicy.rs: decode_policy"]}
{"id": "C63", "title": "The language every decoder accepts", "statement": "For every type of either wire format the accepted byte strings are exactly those of a written grammar, each standing for one value: the layout the encoder writes, except that integers below 64 bits ignore their high bytes, v1 amounts allow leading zeros up to sixteen bytes, the siafund claim start is dropped, and v2 transactions may announce empty sections and set unknown bits. Everything the encoder writes is in the grammar, and no accepted string is a prefix of another.", "quantifier": "every byte string, every type of the wire formats, every chain state in either build profile", "why_tests_cant": "That nothing else is accepted is a statement about all byte strings.", "anchors": ["sia/src/encoding/v1.rs", "sia/src/encoding/v2.rs", "sia/src/types/v1.rs", "sia/src/types/v2.rs: Transaction", "sia/src/consensus.rs: State"]}
{"id": "C64", "title": "Values in binary serde formats", "statement": "A value serialised with a serde format that is not human readable, such as CBOR or MessagePack, is deserialised to the same value by that format, for every type that has serde implementations.", "quantifier": "every value of every serde type and every self-describing format that is not human readable", "why_tests_cant": "All values; the repository tests JSON only, and the two branches on the kind of format are never run together.", "anchors": ["sia/src/macros.rs: impl_hash_id", "sia/src/types/v1.rs: Serialize and Deserialize for UnlockKey", "sia/src/types/spendpolicy.rs: Serialize for SpendPolicy", "sia/src/types/v2.rs: FileContractResolution", "sia/src/consensus.rs: ElementAccumulator"]}
{"id": "C65", "title": "What every decoder does with every input", "statement": "For every type of either wire format, every byte string is accepted, refused or stops the thread exactly as written down: which strings are accepted, which error is returned for the others, on which strings the input counts as too short, and which panics occur on what. Allocation fails only at eight bytes denoting at least 2^52 in a transaction or block, and a block's timestamp stops the thread exactly if it lies outside the years -9999 to 9999.", "quantifier": "every byte string, every type of the wire formats, every chain state in either build profile", "why_tests_cant": "The errors and panics over all inputs, at every position and depth of nesting.", "anchors": ["sia/src/encoding/v1.rs", "sia/src/encoding/v2.rs", "sia/src/types/v1.rs", "sia/src/types/v2.rs", "sia/src/types/spendpolicy.rs", "sia/src/consensus.rs"]}
{"id": "C66", "title": "Secrets do not leak", "statement": "Formatting a private key for debugging tells no more than its public key. Dropping a seed or private key overwrites all of its bytes and nothing else, and once every seed and key a program made has been dropped, no memory the library used for them still holds any of their bytes.", "quantifier": "every key, every history of making, cloning, moving, deriving, signing with and dropping seeds and keys", "why_tests_cant": "All histories; tests cannot look at memory that is no longer a value's.", "anchors": ["sia/src/signing.rs: PrivateKey, Debug, Clone, Drop, sign_hash", "sia/src/seed.rs: Seed, Drop, private_key"]}
{"id": "C67", "title": "Work of decoding untrusted bytes", "statement": "Decoding turns to its reader at most once for every byte of the input and once more, whatever lengths the input promises; accepted input takes at most one read for every byte used, however much follows. Reads and requests for memory together are at most four for every three bytes, and one.", "quantifier": "every byte string, every decoder of the library, every depth of stack", "why_tests_cant": "The longest run over all inputs; loops are bounded by numbers the input chooses.", "anchors": ["sia/src/encoding/v2.rs: Vec<T>, String", "sia/src/encoding/v1.rs: Vec<T>, String", "sia/src/types/spendpolicy.rs: decode_policy", "sia/src/types/v2.rs: Transaction", "sia/src/consensus.rs: State"]}
{"id": "C68", "title": "Stack needed for nested policies", "statement": "A spend policy that was decoded, read from JSON or built by hand can be encoded, hashed to its address and dropped without exhausting the stack, whatever its nesting.", "quantifier": "every spend policy and every stack; every byte string and text it was read from", "why_tests_cant": "All depths of nesting; the tests nest three deep.", "anchors": ["sia/src/types/spendpolicy.rs: SpendPolicy::{encode, address}"]}
{"id": "C69", "title": "Work of spend policies in JSON", "statement": "Writing a spend policy as JSON and reading it from a text take work proportional to the size of the document, counted in JSON values that are built.", "quantifier": "every spend policy, every JSON text", "why_tests_cant": "All widths and depths; cost is not observed by tests.", "anchors": ["sia/src/types/spendpolicy.rs: Serialize and Deserialize for SpendPolicy"]}
{"id": "C70", "title": "Errors of rejected texts", "statement": "When the text of a hash, ID, address, leaf, signature, unlock key or amount is rejected, the error says why: a wrong length, a missing prefix, a wrong checksum, the first character that is not a digit with its position, the unknown unit, or the malformed part of the amount. Each error is given exactly for the texts it describes.", "quantifier": "every input string, both build profiles", "why_tests_cant": "All strings, and several faults in one text; the tests pin a few errors.", "anchors": ["sia/src/macros.rs: impl_hash_id", "sia/src/types/common.rs: HexParseError, Address, Leaf", "sia/src/signing.rs: Signature", "sia/src/types/v1.rs: UnlockKey", "sia/src/types/currency.rs: CurrencyParseError"]}
{"id": "C71", "title": "Timestamps with an offset from UTC", "statement": "A timestamp in JSON may give its local time and an offset from UTC. Exactly the texts of RFC 3339, with any one character between date and time, offsets up to 25:59, further digits of the fraction dropped and the 61st second only at the end of a month in UTC, are read, as the time they say. What is written is read back with the same offset, and every timestamp that was read can be written again. The binary encoding has the instant in whole seconds, and can be decoded.", "quantifier": "every text, every local time, fraction and offset", "why_tests_cant": "All offsets, leap seconds and ends of the year range; the tests only use UTC.", "anchors": ["sia/src/types/common.rs: Block", "sia/src/consensus.rs: State, HardforkOak", "sia/src/types/utils.rs: timestamp_array", "sia/src/encoding/v2.rs: OffsetDateTime"]}
{"id": "C72", "title": "A signature is a signature for one message", "statement": "Two messages for which one signature verifies under a key made from a seed are the same message: the same kind of object (v1 transaction, attestation, contract, renewal, v2 transaction), with the same content apart from signatures, for the same replay prefix, unless BLAKE2b-256 or the challenge hash of the signature collides. In particular a signature of a v1 transaction is not one in v2. A wallet restored from its recovery phrase makes signatures that verify under the keys of the wallet before.", "quantifier": "all seeds, signatures, pairs of messages and chain states", "why_tests_cant": "Tests compare a few hashes and verify a few signatures; whether any two of all messages share their signed bytes, across versions and object kinds, is a statement about all pairs.", "anchors": ["sia/src/types/v1.rs: whole_sig_hash, partial_sig_hash", "sia/src/types/v2.rs: sig_hash, input_sig_hash", "sia/src/signing.rs: PublicKey::verify, PrivateKey::sign_hash", "sia/src/seed.rs: Seed"]}
{"id": "C73", "title": "What becomes of a peer's transaction as JSON", "statement": "A transaction or block that was accepted from the wire can be written as JSON and read back. Where this fails, the names of the algorithms in its unlock keys say how: if all are UTF-8 without a colon (up to trailing zeros) the transaction survives, if all are UTF-8 but one has a colon it is written but no reader of the library accepts the document, in whatever order its members are, and if one is not UTF-8 writing panics.", "quantifier": "every byte string that decodes, every transaction, block and policy, both build profiles", "why_tests_cant": "All transactions a peer may send; the tests only serialise transactions with ed25519 keys.", "anchors": ["sia/src/types/v1.rs: UnlockKey, Transaction", "sia/src/types/specifier.rs: Specifier", "sia/src/types/v2.rs: Transaction", "sia/src/types/common.rs: Block", "sia/src/types/spendpolicy.rs: SpendPolicy"]}
{"id": "C74", "title": "What is read from JSON can be written again and sent", "statement": "A transaction, block or spend policy that was read from JSON text can be written as JSON text again, which is then read as the same value, and the bytes sent to a peer are read as the same value. (Refuted in three corners: a key whose algorithm name is cut in the middle of a character makes writing panic; thresholds with more than 255 children and block times with fractions of a second do not survive the wire. Nothing else goes wrong; in particular writing never nests more deeply than what was read, so the depth limit of the parser is never hit by the library's own output.)", "quantifier": "every text and every value read from it, for all types of the library; every stack of the reader and of the peer; all bytes following on the wire", "why_tests_cant": "The exceptions depend on the nesting, on the widths of thresholds at every level and on the position of character boundaries; tests on a few documents cannot show that there are no others.", "anchors": ["sia/src/types/v1.rs: UnlockKey, Transaction", "sia/src/types/specifier.rs: Specifier", "sia/src/types/v2.rs: Transaction", "sia/src/types/common.rs: Block", "sia/src/types/spendpolicy.rs: SpendPolicy"]}
