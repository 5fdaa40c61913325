{
 "C01": "The hypothesis P of each row of the table (SpecCodecs.v) is the representability condition named in the quantifier; C01_unrepresentable shows it is needed.",
 "C07": "Refuted: Vec::with_capacity on an untrusted length, timestamps out of range and deep policies abort. The partial theorems give the exact panic reasons and the panic-free types.",
 "C08": "Refuted by v1 currency with leading zeros, v1 siafund outputs, narrow integers, v2 transactions with empty sections, and others. Proved for the table StrictCodec.",
 "C09": "Refuted: u16, u32, i16, i32 drop the high bytes. Layout and recovery are proved for all seven types, exactness for the 64-bit ones.",
 "C13": "Refuted: out of range timestamps panic, fractions of a second are lost, and nothing else (C13_rounded_partial). Everything else is proved.",
 "C15": "Refuted: with overflow checks a large amount or one finer than a hasting panics; without them it wraps to another amount, or loses its fraction. Every outcome is characterised exactly, in both profiles, for texts shorter than 2^31 bytes (C15_exact_partial, C15_malformed_partial, C15_outcome_partial).",
 "C16": "Refuted for release builds: the operators wrap, and the sum of an iterator too; C16_wrapping_partial says to what. The checked operations are proved for every pair.",
 "C19": "Refuted: the address literal ignores the checksum and hash literals reject the accepted prefixed texts. What each macro accepts is characterised exactly.",
 "C20": "Refuted for texts ending in a zero byte and for specifiers that are not UTF-8. Proved for the others.",
 "C21": "Refuted for algorithms with a colon and for those that are not UTF-8. Which keys survive and which texts are accepted is characterised exactly.",
 "C23": "Refuted from four leaves on: add_leaf carries with the new leaf instead of the node built so far. Up to three leaves it is the Merkle root; for any number the exact set of leaves that matter is proved.",
 "C24": "Refuted because of C23: with two keys the second key is not committed to. Full binding is proved for at most one key. For any numbers of keys C24_tree_partial says exactly which conditions share an address: those with the same tree of leaves. C24_keys_partial gives the positions that count for equal numbers of keys.",
 "C25": "Refuted: leaf i*4+j is read from segment i+j, so bytes from 1048768 on are never read. Schedule independence, the root over the leaves read and binding of the bytes read are proved.",
 "C27": "Refuted through C24 and because times are hashed in whole seconds. Proved for all other policies, of any depth and width; C27_exact_partial says for all policies exactly which ones share an address.",
 "C28": "Refuted: the child count is written as one byte, and times lose their fraction. Proved for policies with at most 255 children and whole seconds; C28_rounded_partial and C28_many_partial say what becomes of the others.",
 "C29": "Refuted: the decoder recurses once per three bytes of input without a limit. The linear bound is proved and is tight.",
 "C30": "The height bound is in the quantifier; C30_bound_needed shows what happens beyond it.",
 "C31": "Refuted: a zero or over-long block interval divides by zero, the amount is not multiplied by the number of blocks, and the network's address is used instead of the state's. C31_outcome_partial gives the result for every height and interval.",
 "C33": "C33_bound_needed shows what happens at the last height.",
 "C34": "C34_before_hardfork adds the bound for the floating-point rate.",
 "C35": "Refuted: the sum of the two payouts overflows. Proved whenever the sum fits in 128 bits, with the exact behaviour otherwise.",
 "C38": "Refuted: without inputs the replay prefix is not hashed, and the variable-length prefix makes an empty and a non-empty prefix ambiguous. Proved for prefixes of the same length, and exactly (both directions) from the ASIC hardfork on, where all prefixes have the same length. What the signature is for and the number of siacoin inputs are bound whatever the prefixes are.",
 "C39": "Error and dependence are proved in full. Binding is refuted: neither kinds nor counts of the covered elements are hashed. Proved when the same number of elements of each kind is covered.",
 "C40": "Refuted: claim addresses are not hashed, and resolutions are hashed without their kind. Everything else is bound when the resolutions are of the same kinds; whatever their kinds are, everything before them, their number, those up to the first difference in kind and the miner fee are bound.",
 "C41": "Separation of the four kinds is proved in full. Across replay prefixes it is refuted between an empty and a non-empty prefix, and proved for prefixes of the same length and for contracts and renewals.",
 "C44": "Fails for a state of height u64::MAX: with overflow checks encoding panics, without them the timestamps are lost. Proved for every other height.",
 "C45": "Sections announced by unknown bits of the bitmap are not rejected, they are ignored; everything else is proved.",
 "C52": "Refuted: State::encode unwraps the writer's errors. Proved: what an accepting writer gets, that a failing one gets a prefix, and exactly at which bytes a failure is an error or a panic (C52_status_partial).",
 "C49": "Refuted for fractions of a second in an After policy, durations beyond 2^63 ns, years before 0, unlock keys with a colon, accumulators with roots in absent slots, and (as text) policies nested 44 deep or more, because serde_json stops at 128 levels. Every other value of every JSON type survives, also with reordered entries and through serde_json::Value.",
 "C50": "Base64Text (SpecBase64.v) is RFC 4648 on bits; the functions of the base64 crate are transcribed in Model_json.v.",
 "C51": "The time crate's RFC 3339 functions are transcribed in Model_json.v.",
 "C47": "The bip39 crate, SHA-256, SHA-512 and Ed25519 key expansion are transcribed and computed; Unicode normalisation is a parameter that leaves seven-bit text alone. The repository's phrase and key vectors are evaluated in VectorsSeed.v.",
 "C48": "Signing and verification are proved equal to RFC 8032 over a proved group law. Refuted: verify panics for public keys that are not curve points, and PrivateKey::from([u8; 64]) does not check its second half, so signatures of such a key need not verify.",
 "C55": "The forms are relations of SpecDoc.v, written without the serialisers. Texts are in C59.",
 "C56": "StructReader (SpecAccept.v) is defined without serde's visitors. One theorem for each struct, one for policies and one for resolutions.",
 "C58": "The macros are functions from declarations to code, the compiler a function from code to codecs (Model_derive.v). Refuted for SiaEncode on a struct with a private named field, whose field is left out; SiaDecode of such a struct does not compile. The library uses neither.",
 "C59": "The grammar (SpecJsonText.v) is RFC 8259; serde_json's printer and parser are transcribed in Model_jsontext.v. Refuted for spend policies nested 44 deep or more, whose own text is rejected. from_str holds the value of a member the type does not know to the same rules as any other; serde_json skips it without counting nesting or pairing surrogates, which from_str_skipping (Model_skip.v, P_skip.v) does too.",
 "C60": "Refuted in the last part only: the decoder returns thresholds with unlock conditions in them, which the constructor refuses.",
 "C62": "False of the code for rejected input: Vec::with_capacity runs on the length prefix alone. Proved for accepted input, and the exact extent on any input: each request at most isize::MAX, four unpaid ones at most, one per three bytes.",
 "C63": "The grammar (SpecGrammar.v) is written without the decoders; the theorem is an equivalence for every type.",
 "C64": "Refuted: hashes and identifiers are written as 32 bytes and read as text, unlock keys are written as text and read as a pair, so no value with one of them can be read back. Proved for all values without them; each type that may hold some has an exact theorem. What is written differs from the JSON document in nothing but the form of hashes (C64_documents), and a document of a type without unlock keys is read as from JSON (C64_reading).",
 "C65": "Exact for every decoder: success, each error and each panic, with the frame of each type written in SpecFrame.v. Nesting of policies is limited by the number of calls the stack has room for, as in C29.",
 "C66": "Refuted: the derived Debug text contains all bytes of the key (both {:?} and {:#?}). Drop wipes exactly the value's storage, but a move, a signature and the derivation of a key each leave unwiped copies, from which the key can be made again. Proved: histories that only make, clone and drop leave nothing, and the number of copies left is bounded by what was moved, signed and derived. Stores a compiler may omit are carried out in the model.",
 "C67": "Counts calls of read_exact and requests for memory; what happens between two such steps (moving an element into its vector, checking UTF-8 of a string once it has been read) is not counted.",
 "C68": "Refuted: nothing limits the nesting of a value built by hand. Proved exactly for encoding and dropping, up to one call for the address; what was decoded with some stack can be used with it, and what was read from JSON text with 43 calls.",
 "C69": "Refuted for writing: json! copies the documents of all nested policies at every threshold, so the work is quadratic in the nesting. Proved: size times nesting when writing, and a fixed factor of the text's length when reading, because serde_json refuses deeper texts.",
 "C70": "Exact, one equivalence for each parser. PublicKey has no parser that returns an error value; its deserialiser only gives texts of errors, which are not modelled.",
 "C71": "Refuted at two edges: offsets of 24 and 25 hours are read but cannot be written, and a timestamp whose local year is 9999 but whose year in UTC is 10000 is read and encoded, but decoding it panics. Everything else is proved exactly.",
 "C72": "Refuted for signatures over chosen parts of a v1 transaction: such a signature can be one of an attestation by the same key (any key, any chain after the hardforks), or of all of another v1 transaction. Proved for whole v1 transactions against each other and against everything signed in v2. For v2 transactions the sameness proved is that of C40, which leaves claim addresses and what follows a resolution of another kind.",
 "C73": "Refuted: transactions accepted from the wire whose serialisation panics (an algorithm that is not UTF-8) or cannot be read (a colon in it), and blocks dated before the year 0. Proved in full otherwise: which fate by the keys, for v1 and v2 transactions, blocks and policies, as documents and as texts. Byte strings of more than 2^61 bytes are left out.",
 "C74": "Refuted: a transaction read from JSON can panic when it is written (the name of an algorithm is cut after 16 bytes, in the middle of a character), a v2 transaction with a threshold of more than 255 children does not arrive when it is sent, a block with a fraction of a second neither. Proved in full otherwise: these are the only exceptions, and no type is nested more deeply when written than when read."
}
