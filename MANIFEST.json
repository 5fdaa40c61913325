{
 "claims": [
  {
   "property": "C01",
   "status": "proved",
   "theorems": [
    "C01_v2_roundtrip",
    "C01_unrepresentable"
   ],
   "note": "The hypothesis P of each row of the table (SpecCodecs.v) is the representability condition named in the quantifier; C01_unrepresentable shows it is needed."
  },
  {
   "property": "C02",
   "status": "proved",
   "theorems": [
    "C02_v1_roundtrip",
    "C02_v1_transaction"
   ],
   "note": ""
  },
  {
   "property": "C03",
   "status": "proved",
   "theorems": [
    "C03_unambiguous",
    "C03_sequences"
   ],
   "note": ""
  },
  {
   "property": "C04",
   "status": "proved",
   "theorems": [
    "C04_truncated"
   ],
   "note": ""
  },
  {
   "property": "C05",
   "status": "proved",
   "theorems": [
    "C05_chunking",
    "C05_same_bytes",
    "C05_failing_reader"
   ],
   "note": ""
  },
  {
   "property": "C06",
   "status": "proved",
   "theorems": [
    "C06_writer"
   ],
   "note": ""
  },
  {
   "property": "C07",
   "status": "partial",
   "theorems": [
    "C07_no_panic_refuted",
    "C07_no_panic_partial",
    "C07_policy_stack_partial"
   ],
   "note": "Refuted: Vec::with_capacity on an untrusted length, timestamps out of range and deep policies abort. The partial theorems give the exact panic reasons and the panic-free types."
  },
  {
   "property": "C08",
   "status": "partial",
   "theorems": [
    "C08_canonical_refuted",
    "C08_canonical_partial",
    "C08_reencode_partial",
    "C08_state_partial"
   ],
   "note": "Refuted by v1 currency with leading zeros, v1 siafund outputs, narrow integers, v2 transactions with empty sections, and others. Proved for the table StrictCodec."
  },
  {
   "property": "C09",
   "status": "partial",
   "theorems": [
    "C09_layout_partial",
    "C09_wide_partial",
    "C09_out_of_range_refuted"
   ],
   "note": "Refuted: u16, u32, i16, i32 drop the high bytes. Layout and recovery are proved for all seven types, exactness for the 64-bit ones."
  },
  {
   "property": "C10",
   "status": "proved",
   "theorems": [
    "C10_bool",
    "C10_option",
    "C10_string_accepts",
    "C10_string_complete",
    "C10_string_rejects"
   ],
   "note": ""
  },
  {
   "property": "C11",
   "status": "proved",
   "theorems": [
    "C11_minimal",
    "C11_accepts",
    "C11_rejects"
   ],
   "note": ""
  },
  {
   "property": "C12",
   "status": "proved",
   "theorems": [
    "C12_roundtrip",
    "C12_decode",
    "C12_layout",
    "C12_range"
   ],
   "note": ""
  },
  {
   "property": "C13",
   "status": "partial",
   "theorems": [
    "C13_roundtrip_partial",
    "C13_decode_partial",
    "C13_rejection_refuted",
    "C13_roundtrip_refuted",
    "C13_layout",
    "C13_rounded_partial"
   ],
   "note": "Refuted: out of range timestamps panic, fractions of a second are lost, and nothing else (C13_rounded_partial). Everything else is proved."
  },
  {
   "property": "C14",
   "status": "proved",
   "theorems": [
    "C14_currency_text",
    "C14_printed"
   ],
   "note": ""
  },
  {
   "property": "C15",
   "status": "partial",
   "theorems": [
    "C15_exact_partial",
    "C15_malformed_partial",
    "C15_accepted_partial",
    "C15_no_panic_refuted",
    "C15_too_fine_refuted",
    "C15_wrong_amount_refuted",
    "C15_outcome_partial"
   ],
   "note": "Refuted: with overflow checks a large amount or one finer than a hasting panics; without them it wraps to another amount, or loses its fraction. Every outcome is characterised exactly, in both profiles, for texts shorter than 2^31 bytes (C15_exact_partial, C15_malformed_partial, C15_outcome_partial)."
  },
  {
   "property": "C16",
   "status": "partial",
   "theorems": [
    "C16_checked",
    "C16_operators_partial",
    "C16_debug_partial",
    "C16_sum_partial",
    "C16_release_refuted",
    "C16_wrapping_partial"
   ],
   "note": "Refuted for release builds: the operators wrap, and the sum of an iterator too; C16_wrapping_partial says to what. The checked operations are proved for every pair."
  },
  {
   "property": "C17",
   "status": "proved",
   "theorems": [
    "C17_roundtrip",
    "C17_printed",
    "C17_accepts"
   ],
   "note": ""
  },
  {
   "property": "C18",
   "status": "proved",
   "theorems": [
    "C18_roundtrip",
    "C18_printed",
    "C18_accepts",
    "C18_checksum",
    "C18_injective"
   ],
   "note": ""
  },
  {
   "property": "C19",
   "status": "partial",
   "theorems": [
    "C19_hash_partial",
    "C19_public_key",
    "C19_address_partial",
    "C19_address_refuted",
    "C19_address_exact_partial",
    "C19_hash_refuted"
   ],
   "note": "Refuted: the address literal ignores the checksum and hash literals reject the accepted prefixed texts. What each macro accepts is characterised exactly."
  },
  {
   "property": "C20",
   "status": "partial",
   "theorems": [
    "C20_text_partial",
    "C20_injective_partial",
    "C20_specifier_partial",
    "C20_bytes_partial",
    "C20_text_refuted",
    "C20_print_refuted"
   ],
   "note": "Refuted for texts ending in a zero byte and for specifiers that are not UTF-8. Proved for the others."
  },
  {
   "property": "C21",
   "status": "partial",
   "theorems": [
    "C21_roundtrip_partial",
    "C21_printed_partial",
    "C21_accepted_partial",
    "C21_print_partial",
    "C21_roundtrip_refuted",
    "C21_print_refuted"
   ],
   "note": "Refuted for algorithms with a colon and for those that are not UTF-8. Which keys survive and which texts are accepted is characterised exactly."
  },
  {
   "property": "C22",
   "status": "proved",
   "theorems": [
    "C22_public_key",
    "C22_public_key_text",
    "C22_signature",
    "C22_signature_text",
    "C22_work",
    "C22_work_text",
    "C22_leaf"
   ],
   "note": ""
  },
  {
   "property": "C23",
   "status": "partial",
   "theorems": [
    "C23_merkle_root_refuted",
    "C23_third_leaf_refuted",
    "C23_merkle_root_partial",
    "C23_sensitive_partial",
    "C23_total_partial",
    "C23_specification",
    "C23_index_partial"
   ],
   "note": "Refuted from four leaves on: add_leaf carries with the new leaf instead of the node built so far. Up to three leaves it is the Merkle root; for any number the exact set of leaves that matter is proved."
  },
  {
   "property": "C24",
   "status": "partial",
   "theorems": [
    "C24_binding_refuted",
    "C24_second_key_refuted",
    "C24_binding_partial",
    "C24_committed_partial",
    "C24_keys_partial",
    "C24_tree_partial",
    "C24_one_tree",
    "C24_total"
   ],
   "note": "Refuted because of C23: with two keys the second key is not committed to. Full binding is proved for at most one key. For any numbers of keys C24_tree_partial says exactly which conditions share an address: those with the same tree of leaves. C24_keys_partial gives the positions that count for equal numbers of keys."
  },
  {
   "property": "C25",
   "status": "partial",
   "theorems": [
    "C25_merkle_root_refuted",
    "C25_tail_refuted",
    "C25_schedule_partial",
    "C25_code_root_partial",
    "C25_binding_partial",
    "C25_length_partial"
   ],
   "note": "Refuted: leaf i*4+j is read from segment i+j, so bytes from 1048768 on are never read. Schedule independence, the root over the leaves read and binding of the bytes read are proved."
  },
  {
   "property": "C26",
   "status": "proved",
   "theorems": [
    "C26_redaction",
    "C26_total"
   ],
   "note": ""
  },
  {
   "property": "C27",
   "status": "partial",
   "theorems": [
    "C27_binding_refuted",
    "C27_time_refuted",
    "C27_binding_partial",
    "C27_revealed_partial",
    "C27_alike_partial",
    "C27_exact_partial",
    "C27_converse"
   ],
   "note": "Refuted through C24 and because times are hashed in whole seconds. Proved for all other policies, of any depth and width; C27_exact_partial says for all policies exactly which ones share an address."
  },
  {
   "property": "C28",
   "status": "partial",
   "theorems": [
    "C28_wide_refuted",
    "C28_time_refuted",
    "C28_roundtrip_partial",
    "C28_rounded_partial",
    "C28_rounded_once",
    "C28_many_partial",
    "C28_accepted",
    "C28_version",
    "C28_type"
   ],
   "note": "Refuted: the child count is written as one byte, and times lose their fraction. Proved for policies with at most 255 children and whole seconds; C28_rounded_partial and C28_many_partial say what becomes of the others."
  },
  {
   "property": "C29",
   "status": "partial",
   "theorems": [
    "C29_bounded_refuted",
    "C29_linear_partial",
    "C29_linear_tight_partial"
   ],
   "note": "Refuted: the decoder recurses once per three bytes of input without a limit. The linear bound is proved and is tight."
  },
  {
   "property": "C30",
   "status": "proved",
   "theorems": [
    "C30_reward",
    "C30_never_increases",
    "C30_bound_needed"
   ],
   "note": "The height bound is in the quantifier; C30_bound_needed shows what happens beyond it."
  },
  {
   "property": "C31",
   "status": "partial",
   "theorems": [
    "C31_panics_refuted",
    "C31_amount_refuted",
    "C31_address_refuted",
    "C31_schedule_partial",
    "C31_division_partial",
    "C31_outcome_partial"
   ],
   "note": "Refuted: a zero or over-long block interval divides by zero, the amount is not multiplied by the number of blocks, and the network's address is used instead of the state's. C31_outcome_partial gives the result for every height and interval."
  },
  {
   "property": "C32",
   "status": "proved",
   "theorems": [
    "C32_prefix",
    "C32_values",
    "C32_nonce_factor"
   ],
   "note": ""
  },
  {
   "property": "C33",
   "status": "proved",
   "theorems": [
    "C33_child",
    "C33_maturity",
    "C33_child_increasing",
    "C33_maturity_increasing",
    "C33_bound_needed"
   ],
   "note": "C33_bound_needed shows what happens at the last height."
  },
  {
   "property": "C34",
   "status": "proved",
   "theorems": [
    "C34_tax",
    "C34_before_hardfork",
    "C34_monotone"
   ],
   "note": "C34_before_hardfork adds the bound for the floating-point rate."
  },
  {
   "property": "C35",
   "status": "partial",
   "theorems": [
    "C35_total_refuted",
    "C35_tax_partial",
    "C35_overflow_partial"
   ],
   "note": "Refuted: the sum of the two payouts overflows. Proved whenever the sum fits in 128 bits, with the exact behaviour otherwise."
  },
  {
   "property": "C36",
   "status": "proved",
   "theorems": [
    "C36_derivations",
    "C36_hashed",
    "C36_no_overlap"
   ],
   "note": ""
  },
  {
   "property": "C37",
   "status": "proved",
   "theorems": [
    "C37_ignores",
    "C37_binds",
    "C37_child_binds"
   ],
   "note": ""
  },
  {
   "property": "C38",
   "status": "partial",
   "theorems": [
    "C38_ignores",
    "C38_no_inputs_refuted",
    "C38_shifted_refuted",
    "C38_binds_partial",
    "C38_always_partial",
    "C38_after_asic_partial"
   ],
   "note": "Refuted: without inputs the replay prefix is not hashed, and the variable-length prefix makes an empty and a non-empty prefix ambiguous. Proved for prefixes of the same length, and exactly (both directions) from the ASIC hardfork on, where all prefixes have the same length. What the signature is for and the number of siacoin inputs are bound whatever the prefixes are."
  },
  {
   "property": "C39",
   "status": "partial",
   "theorems": [
    "C39_error",
    "C39_which",
    "C39_depends",
    "C39_depends_no_inputs",
    "C39_binds_refuted",
    "C39_binds_partial"
   ],
   "note": "Error and dependence are proved in full. Binding is refuted: neither kinds nor counts of the covered elements are hashed. Proved when the same number of elements of each kind is covered."
  },
  {
   "property": "C40",
   "status": "partial",
   "theorems": [
    "C40_ignores",
    "C40_id_claims_refuted",
    "C40_signature_claims_refuted",
    "C40_resolutions_refuted",
    "C40_id_partial",
    "C40_signature_partial",
    "C40_plain_partial",
    "C40_id_always_partial",
    "C40_signature_always_partial"
   ],
   "note": "Refuted: claim addresses are not hashed, and resolutions are hashed without their kind. Everything else is bound when the resolutions are of the same kinds; whatever their kinds are, everything before them, their number, those up to the first difference in kind and the miner fee are bound."
  },
  {
   "property": "C41",
   "status": "partial",
   "theorems": [
    "C41_kinds",
    "C41_replay_refuted",
    "C41_replay_partial",
    "C41_replay_after_asic_partial"
   ],
   "note": "Separation of the four kinds is proved in full. Across replay prefixes it is refuted between an empty and a non-empty prefix, and proved for prefixes of the same length and for contracts and renewals."
  },
  {
   "property": "C42",
   "status": "proved",
   "theorems": [
    "C42_contract",
    "C42_renewal",
    "C42_attestation"
   ],
   "note": ""
  },
  {
   "property": "C43",
   "status": "proved",
   "theorems": [
    "C43_layout",
    "C43_decoded",
    "C43_roundtrip",
    "C43_canonical",
    "C43_json",
    "C43_agree",
    "C43_json_count"
   ],
   "note": ""
  },
  {
   "property": "C44",
   "status": "partial",
   "theorems": [
    "C44_height_refuted",
    "C44_max_debug_partial",
    "C44_max_release_partial",
    "C44_layout_partial",
    "C44_roundtrip_partial",
    "C44_decoded_partial",
    "C44_filled_partial"
   ],
   "note": "Fails for a state of height u64::MAX: with overflow checks encoding panics, without them the timestamps are lost. Proved for every other height."
  },
  {
   "property": "C45",
   "status": "partial",
   "theorems": [
    "C45_layout",
    "C45_empty",
    "C45_version",
    "C45_absent",
    "C45_roundtrip",
    "C45_unknown_refuted",
    "C45_unknown_partial"
   ],
   "note": "Sections announced by unknown bits of the bitmap are not rejected, they are ignored; everything else is proved."
  },
  {
   "property": "C46",
   "status": "proved",
   "theorems": [
    "C46_roundtrip",
    "C46_layout",
    "C46_kind",
    "C46_unknown"
   ],
   "note": ""
  },
  {
   "property": "C47",
   "status": "proved",
   "theorems": [
    "C47_phrase",
    "C47_phrase_words",
    "C47_roundtrip",
    "C47_restored_keys",
    "C47_accepts",
    "C47_words_exist",
    "C47_invalid_length",
    "C47_phrases_differ",
    "C47_derived_key",
    "C47_derivation_binds",
    "C47_inputs_differ",
    "C47_public_keys"
   ],
   "note": "The bip39 crate, SHA-256, SHA-512 and Ed25519 key expansion are transcribed and computed; Unicode normalisation is a parameter that leaves seven-bit text alone. The repository's phrase and key vectors are evaluated in VectorsSeed.v."
  },
  {
   "property": "C48",
   "status": "partial",
   "theorems": [
    "C48_sign_verify",
    "C48_sign_verify_bytes_partial",
    "C48_sign_verify_bytes_refuted",
    "C48_bytes_key_verify",
    "C48_public_key",
    "C48_signature",
    "C48_key_bytes",
    "C48_verify",
    "C48_key_point_unique",
    "C48_total_partial",
    "C48_panics",
    "C48_total_refuted",
    "C48_not_malleable",
    "C48_two_hashes",
    "C48_public_key_binds"
   ],
   "note": "Signing and verification are proved equal to RFC 8032 over a proved group law. Refuted: verify panics for public keys that are not curve points, and PrivateKey::from([u8; 64]) does not check its second half, so signatures of such a key need not verify."
  },
  {
   "property": "C49",
   "status": "partial",
   "theorems": [
    "C49_fraction_refuted",
    "C49_depth_refuted",
    "C49_duration_refuted",
    "C49_early_refuted",
    "C49_accumulator_refuted",
    "C49_key_refuted",
    "C49_policy_partial",
    "C49_satisfied_partial",
    "C49_covered_fields",
    "C49_v1_partial",
    "C49_v2_transaction_partial",
    "C49_v2_partial",
    "C49_contracts",
    "C49_consensus_partial",
    "C49_simple",
    "C49_leaves_partial",
    "C49_text",
    "C49_v2_transaction_text_partial"
   ],
   "note": "Refuted for fractions of a second in an After policy, durations beyond 2^63 ns, years before 0, unlock keys with a colon, accumulators with roots in absent slots, and (as text) policies nested 44 deep or more, because serde_json stops at 128 levels. Every other value of every JSON type survives, also with reordered entries and through serde_json::Value."
  },
  {
   "property": "C50",
   "status": "proved",
   "theorems": [
    "C50_written",
    "C50_accepts",
    "C50_reads",
    "C50_rejects",
    "C50_one_text",
    "C50_lists",
    "C50_lists_accepts"
   ],
   "note": "Base64Text (SpecBase64.v) is RFC 4648 on bits; the functions of the base64 crate are transcribed in Model_json.v."
  },
  {
   "property": "C51",
   "status": "proved",
   "theorems": [
    "C51_short",
    "C51_long",
    "C51_accepted",
    "C51_filled",
    "C51_written",
    "C51_early"
   ],
   "note": "The time crate's RFC 3339 functions are transcribed in Model_json.v."
  },
  {
   "property": "C52",
   "status": "partial",
   "theorems": [
    "C52_state_writer_refuted",
    "C52_state_writer_partial",
    "C52_status_partial"
   ],
   "note": "Refuted: State::encode unwraps the writer's errors. Proved: what an accepting writer gets, that a failing one gets a prefix, and exactly at which bytes a failure is an error or a panic (C52_status_partial)."
  },
  {
   "property": "C53",
   "status": "proved",
   "theorems": [
    "C53_v2",
    "C53_v1",
    "C53_state",
    "C53_all_types",
    "C53_read",
    "C53_accepted"
   ],
   "note": ""
  },
  {
   "property": "C54",
   "status": "proved",
   "theorems": [
    "C54_identifiers",
    "C54_v2_transaction",
    "C54_signed",
    "C54_whole",
    "C54_covered",
    "C54_address",
    "C54_conditions",
    "C54_key_address"
   ],
   "note": ""
  },
  {
   "property": "C55",
   "status": "proved",
   "theorems": [
    "C55_leaves",
    "C55_common",
    "C55_v1",
    "C55_policy",
    "C55_v2",
    "C55_consensus",
    "C55_one_day",
    "C55_one_time"
   ],
   "note": "The forms are relations of SpecDoc.v, written without the serialisers. Texts are in C59."
  },
  {
   "property": "C56",
   "status": "proved",
   "theorems": [
    "C56_chain_index",
    "C56_siacoin_output",
    "C56_siafund_output",
    "C56_state_element",
    "C56_unlock_conditions",
    "C56_v1_siacoin_input",
    "C56_v1_siafund_input",
    "C56_v1_file_contract",
    "C56_v1_file_contract_revision",
    "C56_v1_storage_proof",
    "C56_covered_fields",
    "C56_transaction_signature",
    "C56_v1_transaction",
    "C56_block",
    "C56_satisfied_policy",
    "C56_attestation",
    "C56_v2_file_contract",
    "C56_siacoin_element",
    "C56_siafund_element",
    "C56_file_contract_element",
    "C56_chain_index_element",
    "C56_v2_siacoin_input",
    "C56_v2_siafund_input",
    "C56_v2_file_contract_revision",
    "C56_file_contract_renewal",
    "C56_v2_storage_proof",
    "C56_v2_transaction",
    "C56_hardfork_dev_addr",
    "C56_hardfork_tax",
    "C56_hardfork_storage_proof",
    "C56_hardfork_oak",
    "C56_hardfork_asic",
    "C56_hardfork_foundation",
    "C56_hardfork_v2",
    "C56_network",
    "C56_state",
    "C56_chain_state",
    "C56_order",
    "C56_unknown",
    "C56_repeated",
    "C56_missing",
    "C56_policy",
    "C56_resolution",
    "C56_lists",
    "C56_options",
    "C56_numbers",
    "C56_texts"
   ],
   "note": "StructReader (SpecAccept.v) is defined without serde's visitors. One theorem for each struct, one for policies and one for resolutions."
  },
  {
   "property": "C57",
   "status": "proved",
   "theorems": [
    "C57_parameters",
    "C57_parameters_read",
    "C57_mainnet_reward",
    "C57_testnet_reward",
    "C57_mined",
    "C57_subsidies",
    "C57_replay_prefix",
    "C57_nonce_factor",
    "C57_maturity"
   ],
   "note": ""
  },
  {
   "property": "C58",
   "status": "partial",
   "theorems": [
    "C58_v1_layout",
    "C58_v1_decode",
    "C58_v1_compiles",
    "C58_v1_roundtrip",
    "C58_v1_determines",
    "C58_v2_layout",
    "C58_v2_decode",
    "C58_v2_compiles",
    "C58_v2_roundtrip",
    "C58_v2_determines_refuted",
    "C58_v2_determines_partial",
    "C58_sums_rejected",
    "C58_v1_library",
    "C58_v2_library",
    "C58_v1_bijective",
    "C58_v2_bijective"
   ],
   "note": "The macros are functions from declarations to code, the compiler a function from code to codecs (Model_derive.v). Refuted for SiaEncode on a struct with a private named field, whose field is left out; SiaDecode of such a struct does not compile. The library uses neither."
  },
  {
   "property": "C59",
   "status": "partial",
   "theorems": [
    "C59_reads",
    "C59_rejects",
    "C59_unambiguous",
    "C59_same",
    "C59_strings",
    "C59_written",
    "C59_total",
    "C59_shortest",
    "C59_indented",
    "C59_roundtrip",
    "C59_foreign",
    "C59_depth_refuted",
    "C59_skipped",
    "C59_skipped_shallow",
    "C59_skipped_more",
    "C59_skipped_grammar",
    "C59_skipped_rejects",
    "C59_skipped_unknown",
    "C59_skipped_exact",
    "C59_skipped_error",
    "C59_skipped_unambiguous",
    "C59_skipped_document",
    "C59_skipped_strict"
   ],
   "note": "The grammar (SpecJsonText.v) is RFC 8259; serde_json's printer and parser are transcribed in Model_jsontext.v. Refuted for spend policies nested 44 deep or more, whose own text is rejected. from_str holds the value of a member the type does not know to the same rules as any other; serde_json skips it without counting nesting or pairing surrogates, which from_str_skipping (Model_skip.v, P_skip.v) does too."
  },
  {
   "property": "C60",
   "status": "partial",
   "theorems": [
    "C60_conditions",
    "C60_address",
    "C60_binds",
    "C60_text",
    "C60_threshold",
    "C60_decoded_refuted"
   ],
   "note": "Refuted in the last part only: the decoder returns thresholds with unlock conditions in them, which the constructor refuses."
  },
  {
   "property": "C61",
   "status": "proved",
   "theorems": [
    "C61_chain_index",
    "C61_chain_index_binds",
    "C61_address",
    "C61_currency_number",
    "C61_currency_order",
    "C61_work",
    "C61_defaults",
    "C61_constants",
    "C61_whole_transaction",
    "C61_policies"
   ],
   "note": ""
  },
  {
   "property": "C62",
   "status": "partial",
   "theorems": [
    "C62_proportional_refuted",
    "C62_string_refuted",
    "C62_v1_transaction_refuted",
    "C62_v2_transaction_refuted",
    "C62_accepted_partial",
    "C62_request_partial",
    "C62_total_partial",
    "C62_count_partial",
    "C62_fixed"
   ],
   "note": "False of the code for rejected input: Vec::with_capacity runs on the length prefix alone. Proved for accepted input, and the exact extent on any input: each request at most isize::MAX, four unpaid ones at most, one per three bytes."
  },
  {
   "property": "C63",
   "status": "proved",
   "theorems": [
    "C63_exact",
    "C63_all_types",
    "C63_written",
    "C63_unique"
   ],
   "note": "The grammar (SpecGrammar.v) is written without the decoders; the theorem is an equivalence for every type."
  },
  {
   "property": "C64",
   "status": "partial",
   "theorems": [
    "C64_hash_refuted",
    "C64_key_refuted",
    "C64_v1_refuted",
    "C64_v2_refuted",
    "C64_consensus_refuted",
    "C64_forms",
    "C64_documents",
    "C64_reading",
    "C64_proofs_partial",
    "C64_conditions_partial",
    "C64_v1_transaction_partial",
    "C64_v2_transaction_partial",
    "C64_policy_partial",
    "C64_satisfied_partial",
    "C64_resolution_partial",
    "C64_accumulator_partial",
    "C64_others_partial"
   ],
   "note": "Refuted: hashes and identifiers are written as 32 bytes and read as text, unlock keys are written as text and read as a pair, so no value with one of them can be read back. Proved for all values without them; each type that may hold some has an exact theorem. What is written differs from the JSON document in nothing but the form of hashes (C64_documents), and a document of a type without unlock keys is read as from JSON (C64_reading)."
  },
  {
   "property": "C65",
   "status": "proved",
   "theorems": [
    "C65_read",
    "C65_stop",
    "C65_refuse",
    "C65_all_types",
    "C65_grammar",
    "C65_huge",
    "C65_block_time"
   ],
   "note": "Exact for every decoder: success, each error and each panic, with the frame of each type written in SpecFrame.v. Nesting of policies is limited by the number of calls the stack has room for, as in C29."
  },
  {
   "property": "C66",
   "status": "partial",
   "theorems": [
    "C66_debug_refuted",
    "C66_debug_tells",
    "C66_pretty_tells",
    "C66_shown",
    "C66_drop",
    "C66_moved_refuted",
    "C66_signed_refuted",
    "C66_derived_refuted",
    "C66_signing_leaves",
    "C66_deriving_leaves",
    "C66_wiped_partial",
    "C66_left_partial"
   ],
   "note": "Refuted: the derived Debug text contains all bytes of the key (both {:?} and {:#?}). Drop wipes exactly the value's storage, but a move, a signature and the derivation of a key each leave unwiped copies, from which the key can be made again. Proved: histories that only make, clone and drop leave nothing, and the number of copies left is bounded by what was moved, signed and derived. Stores a compiler may omit are carried out in the model."
  },
  {
   "property": "C67",
   "status": "proved",
   "theorems": [
    "C67_reads",
    "C67_accepted",
    "C67_steps"
   ],
   "note": "Counts calls of read_exact and requests for memory; what happens between two such steps (moving an element into its vector, checking UTF-8 of a string once it has been read) is not counted."
  },
  {
   "property": "C68",
   "status": "partial",
   "theorems": [
    "C68_bounded_refuted",
    "C68_encode_partial",
    "C68_drop_partial",
    "C68_address_partial",
    "C68_decoded_partial",
    "C68_text_partial"
   ],
   "note": "Refuted: nothing limits the nesting of a value built by hand. Proved exactly for encoding and dropping, up to one call for the address; what was decoded with some stack can be used with it, and what was read from JSON text with 43 calls."
  },
  {
   "property": "C69",
   "status": "partial",
   "theorems": [
    "C69_write_refuted",
    "C69_write_partial",
    "C69_read_partial",
    "C69_children_partial"
   ],
   "note": "Refuted for writing: json! copies the documents of all nested policies at every threshold, so the work is quadratic in the nesting. Proved: size times nesting when writing, and a fixed factor of the text's length when reading, because serde_json refuses deeper texts."
  },
  {
   "property": "C70",
   "status": "proved",
   "theorems": [
    "C70_hash",
    "C70_address",
    "C70_leaf",
    "C70_signature",
    "C70_unlock_key",
    "C70_currency"
   ],
   "note": "Exact, one equivalence for each parser. PublicKey has no parser that returns an error value; its deserialiser only gives texts of errors, which are not modelled."
  },
  {
   "property": "C71",
   "status": "partial",
   "theorems": [
    "C71_read",
    "C71_instant",
    "C71_written",
    "C71_back",
    "C71_kept_partial",
    "C71_kept_refuted",
    "C71_wire_same",
    "C71_equal",
    "C71_wire_partial",
    "C71_wire_refuted"
   ],
   "note": "Refuted at two edges: offsets of 24 and 25 hours are read but cannot be written, and a timestamp whose local year is 9999 but whose year in UTC is 10000 is read and encoded, but decoding it panics. Everything else is proved exactly."
  },
  {
   "property": "C72",
   "status": "partial",
   "theorems": [
    "C72_attestation_refuted",
    "C72_whole_refuted",
    "C72_one_message_partial",
    "C72_after_asic_partial",
    "C72_versions_partial",
    "C72_restored"
   ],
   "note": "Refuted for signatures over chosen parts of a v1 transaction: such a signature can be one of an attestation by the same key (any key, any chain after the hardforks), or of all of another v1 transaction. Proved for whole v1 transactions against each other and against everything signed in v2. For v2 transactions the sameness proved is that of C40, which leaves claim addresses and what follows a resolution of another kind."
  },
  {
   "property": "C73",
   "status": "partial",
   "theorems": [
    "C73_v1_shown_refuted",
    "C73_v2_shown_refuted",
    "C73_v1_read_refuted",
    "C73_v2_read_refuted",
    "C73_block_refuted",
    "C73_v1_partial",
    "C73_v2_partial",
    "C73_v2_depth_partial",
    "C73_block_partial",
    "C73_policy_partial",
    "C73_exclusive",
    "C73_text_partial",
    "C73_printable"
   ],
   "note": "Refuted: transactions accepted from the wire whose serialisation panics (an algorithm that is not UTF-8) or cannot be read (a colon in it), and blocks dated before the year 0. Proved in full otherwise: which fate by the keys, for v1 and v2 transactions, blocks and policies, as documents and as texts. Byte strings of more than 2^61 bytes are left out."
  },
  {
   "property": "C74",
   "status": "partial",
   "theorems": [
    "C74_v1_written_refuted",
    "C74_v2_written_refuted",
    "C74_v1_partial",
    "C74_v2_partial",
    "C74_policy_partial",
    "C74_block_partial",
    "C74_key_partial",
    "C74_nesting",
    "C74_deeper",
    "C74_depth",
    "C74_policy_depth",
    "C74_v2_sent_refuted",
    "C74_v2_sent_partial",
    "C74_v1_sent",
    "C74_block_sent_refuted",
    "C74_block_sent_partial"
   ],
   "note": "Refuted: a transaction read from JSON can panic when it is written (the name of an algorithm is cut after 16 bytes, in the middle of a character), a v2 transaction with a threshold of more than 255 children does not arrive when it is sent, a block with a fraction of a second neither. Proved in full otherwise: these are the only exceptions, and no type is nested more deeply when written than when read."
  }
 ]
}