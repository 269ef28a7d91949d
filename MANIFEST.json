{
 "claims": [
  {
   "property": "C01",
   "status": "proved",
   "theorems": [
    "C01_varint_roundtrip"
   ],
   "note": ""
  },
  {
   "property": "C02",
   "status": "proved",
   "theorems": [
    "C02_varint_form",
    "C02_varint_shortest",
    "C02_decode_accepts",
    "C02_nonminimal_accepted"
   ],
   "note": ""
  },
  {
   "property": "C03",
   "status": "proved",
   "theorems": [
    "C03_decode_varint_empty",
    "C03_decode_varint_exact",
    "C03_decode_varint_local",
    "C03_decode_varint_overread"
   ],
   "note": "Exact equation for every slice and capacity, including the over-read."
  },
  {
   "property": "C04",
   "status": "proved",
   "theorems": [
    "C04_fresh",
    "C04_reverse_bytes",
    "C04_reverse_bytes_involution",
    "C04_reverse_hex_denotes",
    "C04_reverse_hex_involution",
    "C04_reverse_hex_pairs",
    "C04_reverse_hex_odd"
   ],
   "note": "C04_fresh is the statement about memory: the result lies in a new array and every other slice (spare bytes included) reads as before."
  },
  {
   "property": "C05",
   "status": "proved",
   "theorems": [
    "C05_in_place",
    "C05_sort_sorts",
    "C05_sort_order_independent",
    "C05_sort_unique",
    "C05_lex_le_order"
   ],
   "note": "Returned list. C05_in_place: the argument's own array ends up in that order (memory model; sort.Sort is external and taken as any permutation that leaves no element smaller than its predecessor)."
  },
  {
   "property": "C06",
   "status": "proved",
   "theorems": [
    "C06_equals",
    "C06_little_endian",
    "C06_little_endian_short"
   ],
   "note": ""
  },
  {
   "property": "C07",
   "status": "proved",
   "theorems": [
    "C07_decode32_exact",
    "C07_decode32_error",
    "C07_decode32_truncates",
    "C07_decode32_short",
    "C07_decode32_only_32_bytes_refuted"
   ],
   "note": "The natural claim is refuted with a witness; the exact behaviour for every length is proved."
  },
  {
   "property": "C08",
   "status": "proved",
   "theorems": [
    "C08_push_roundtrip",
    "C08_push_readback",
    "C08_push_panic",
    "C08_encode_fails",
    "C08_encode_error_iff"
   ],
   "note": ""
  },
  {
   "property": "C09",
   "status": "proved",
   "theorems": [
    "C09_prefix_total",
    "C09_prefix_canonical",
    "C09_prefix_unique"
   ],
   "note": ""
  },
  {
   "property": "C10",
   "status": "proved",
   "theorems": [
    "C10_decode_panic_iff",
    "C10_decode_error_iff",
    "C10_decode_ok_iff",
    "C10_exported_opcodes"
   ],
   "note": ""
  },
  {
   "property": "C11",
   "status": "proved",
   "theorems": [
    "C11_decode_lossless",
    "C11_decode_unique",
    "C11_decode_partial_result",
    "C11_truncated_maximal"
   ],
   "note": ""
  },
  {
   "property": "C12",
   "status": "proved",
   "theorems": [
    "C12_builder_bytes",
    "C12_builder_unique",
    "C12_builder_history",
    "C12_failed_call_unchanged",
    "C12_failed_iff",
    "C12_error_iff"
   ],
   "note": ""
  },
  {
   "property": "C13",
   "status": "proved",
   "theorems": [
    "C13_is_p2pkh_iff",
    "C13_from_pubkey_bytes",
    "C13_from_pubkey_str",
    "C13_from_pkh_str",
    "C13_from_address",
    "C13_from_bad_address",
    "C13_get_public_key_hash",
    "C13_from_pkh_unchecked"
   ],
   "note": ""
  },
  {
   "property": "C14",
   "status": "proved",
   "theorems": [
    "C14_gpkh_error_iff",
    "C14_gpkh_ok_iff",
    "C14_gpkh_panic_iff",
    "C14_gpkh_only_p2pkh_refuted"
   ],
   "note": ""
  },
  {
   "property": "C15",
   "status": "proved",
   "theorems": [
    "C15_no_error",
    "C15_is_p2sh_iff",
    "C15_is_p2pk_iff",
    "C15_is_data_iff",
    "C15_is_multisig_iff",
    "C15_disjoint",
    "C15_data_multisig_disjoint_refuted",
    "C15_p2pk_ends_in_checksig_refuted"
   ],
   "note": ""
  },
  {
   "property": "C16",
   "status": "proved",
   "theorems": [
    "C16_p2pk_panic_iff",
    "C16_multisig_panic_iff",
    "C16_data_panic_iff",
    "C16_predicates_total_refuted"
   ],
   "note": ""
  },
  {
   "property": "C17",
   "status": "proved",
   "theorems": [
    "C17_asm_roundtrip",
    "C17_asm_one_byte_push_refuted",
    "C17_asm_empty_refuted",
    "C17_asm_normal_form"
   ],
   "note": ""
  },
  {
   "property": "C18",
   "status": "proved",
   "theorems": [
    "C18_bytes",
    "C18_fails",
    "C18_unlocking_script",
    "C18_error_iff"
   ],
   "note": ""
  },
  {
   "property": "C19",
   "status": "proved",
   "theorems": [
    "C19_round_trip",
    "C19_distinct",
    "C19_from_keys"
   ],
   "note": ""
  },
  {
   "property": "C20",
   "status": "proved",
   "theorems": [
    "C20_validate_iff",
    "C20_leading_ones",
    "C20_valid_is_decodable_refuted",
    "C20_error_iff"
   ],
   "note": ""
  },
  {
   "property": "C21",
   "status": "proved",
   "theorems": [
    "C21_from_string_iff",
    "C21_never_panics",
    "C21_checksum_ignored",
    "C21_accepts_only_valid_refuted",
    "C21_base58_bijection",
    "C21_error_iff"
   ],
   "note": ""
  },
  {
   "property": "C22",
   "status": "proved",
   "theorems": [
    "C22_missing_checksum_decodes",
    "C22_injective"
   ],
   "note": ""
  },
  {
   "property": "C23",
   "status": "proved",
   "theorems": [
    "C23_round_trip_iff",
    "C23_exact",
    "C23_out_of_range",
    "C23_testnet",
    "C23_round_trip_refuted",
    "C23_text",
    "C23_text_error"
   ],
   "note": ""
  },
  {
   "property": "C24",
   "status": "proved",
   "theorems": [
    "C24_decode_iff",
    "C24_panic_iff",
    "C24_validate_script",
    "C24_error_iff",
    "C24_validate_error"
   ],
   "note": ""
  },
  {
   "property": "C25",
   "status": "proved",
   "theorems": [
    "C25_error_iff",
    "C25_round_trip_iff",
    "C25_round_trip",
    "C25_accepts_iff",
    "C25_panics_iff"
   ],
   "note": ""
  },
  {
   "property": "C26",
   "status": "proved",
   "theorems": [
    "C26_error_iff",
    "C26_round_trip",
    "C26_accepts_iff",
    "C26_panics_iff",
    "C26_sighash_bytes"
   ],
   "note": ""
  },
  {
   "property": "C27",
   "status": "proved",
   "theorems": [
    "C27_round_trip_iff",
    "C27_round_trip",
    "C27_round_trip_hex",
    "C27_idempotent"
   ],
   "note": ""
  },
  {
   "property": "C28",
   "status": "proved",
   "theorems": [
    "C28_error_iff",
    "C28_accepts_iff",
    "C28_canonical",
    "C28_identity_refuted"
   ],
   "note": ""
  },
  {
   "property": "C29",
   "status": "proved",
   "theorems": [
    "C29_no_extension",
    "C29_no_prefix"
   ],
   "note": ""
  },
  {
   "property": "C30",
   "status": "proved",
   "theorems": [
    "C30_capacity_independent",
    "C30_size_bound",
    "C30_panics_iff",
    "C30_never_panics_refuted",
    "C30_script_length_refuted",
    "C30_failure_capacity_refuted"
   ],
   "note": ""
  },
  {
   "property": "C31",
   "status": "proved",
   "theorems": [
    "C31_definition",
    "C31_commits",
    "C31_metadata_free"
   ],
   "note": ""
  },
  {
   "property": "C32",
   "status": "proved",
   "theorems": [
    "C32_total",
    "C32_exact_iff",
    "C32_order",
    "C32_panics_iff"
   ],
   "note": ""
  },
  {
   "property": "C33",
   "status": "proved",
   "theorems": [
    "C33_iff",
    "C33_total",
    "C33_null_outpoint_reported",
    "C33_reports_only_null_outpoint_refuted"
   ],
   "note": ""
  },
  {
   "property": "C34",
   "status": "proved",
   "theorems": [
    "C34_new_input",
    "C34_histories",
    "C34_every_history",
    "C34_failure_changes_nothing",
    "C34_counts",
    "C34_from_utxo_input"
   ],
   "note": ""
  },
  {
   "property": "C35",
   "status": "proved",
   "theorems": [
    "C35_dropped",
    "C35_expected_iff",
    "C35_missing_bytes",
    "C35_nil_script",
    "C35_as_expected_refuted"
   ],
   "note": ""
  },
  {
   "property": "C36",
   "status": "proved",
   "theorems": [
    "C36_single_far",
    "C36_single_wrapped",
    "C36_any_size_refuted",
    "C36_digest_iff",
    "C36_preimage_unique",
    "C36_preimage_exists",
    "C36_error_iff",
    "C36_panic_iff"
   ],
   "note": ""
  },
  {
   "property": "C37",
   "status": "proved",
   "theorems": [
    "C37_outputs",
    "C37_every_flag",
    "C37_outpoints",
    "C37_all",
    "C37_single"
   ],
   "note": ""
  },
  {
   "property": "C38",
   "status": "proved",
   "theorems": [
    "C38_depends_only_on",
    "C38_unlocking_scripts_free"
   ],
   "note": ""
  },
  {
   "property": "C39",
   "status": "proved",
   "theorems": [
    "C39_bytes",
    "C39_success",
    "C39_error_changes_nothing",
    "C39_succeeds_when_possible",
    "C39_error_iff",
    "C39_panics_iff"
   ],
   "note": ""
  },
  {
   "property": "C40",
   "status": "proved",
   "theorems": [
    "C40_exact",
    "C40_p2pkh_matches",
    "C40_panics_iff",
    "C40_any_order",
    "C40_only_p2pkh_refuted"
   ],
   "note": ""
  },
  {
   "property": "C41",
   "status": "proved",
   "theorems": [
    "C41_never_reports",
    "C41_reports_failure_refuted"
   ],
   "note": ""
  },
  {
   "property": "C42",
   "status": "proved",
   "theorems": [
    "C42_root",
    "C42_root_unique"
   ],
   "note": ""
  },
  {
   "property": "C43",
   "status": "proved",
   "theorems": [
    "C43_coinbase_irrelevant",
    "C43_length",
    "C43_is_path",
    "C43_is_path_text"
   ],
   "note": ""
  },
  {
   "property": "C44",
   "status": "proved",
   "theorems": [
    "C44_completeness",
    "C44_proof_exists",
    "C44_accepts_iff",
    "C44_index_too_large",
    "C44_no_panic",
    "C44_negative_index_rejected_refuted",
    "C44_negative_index",
    "C44_error_iff"
   ],
   "note": ""
  },
  {
   "property": "C45",
   "status": "proved",
   "theorems": [
    "C45_sound",
    "C45_membership",
    "C45_any_length_refuted",
    "C45_root_determines_list_refuted",
    "C45_any_index"
   ],
   "note": ""
  },
  {
   "property": "C46",
   "status": "proved",
   "theorems": [
    "C46_layout",
    "C46_injective",
    "C46_always_80_refuted",
    "C46_bytes"
   ],
   "note": ""
  },
  {
   "property": "C47",
   "status": "proved",
   "theorems": [
    "C47_round_trip",
    "C47_script",
    "C47_errors",
    "C47_no_panic",
    "C47_bip34_iff",
    "C47_height_refuted",
    "C47_any_nonce_refuted",
    "C47_input_helper",
    "C47_chunk",
    "C47_error_iff"
   ],
   "note": "C47_input_helper and C47_chunk are about two helpers no exported function calls."
  },
  {
   "property": "C48",
   "status": "proved",
   "theorems": [
    "C48_as_int_iff",
    "C48_hex_iff",
    "C48_error_iff",
    "C48_panics_iff",
    "C48_fits_iff",
    "C48_sign_kept_refuted",
    "C48_error_value"
   ],
   "note": ""
  },
  {
   "property": "C49",
   "status": "proved",
   "theorems": [
    "C49_agrees_iff",
    "C49_always_agrees_refuted",
    "C49_outcome",
    "C49_value",
    "C49_monotone",
    "C49_one",
    "C49_panics_iff",
    "C49_rejects_non_hex_refuted"
   ],
   "note": ""
  },
  {
   "property": "C50",
   "status": "proved",
   "theorems": [
    "C50_value",
    "C50_order_independent",
    "C50_stable",
    "C50_hash_address",
    "C50_history",
    "C50_injective",
    "C50_injective_refuted"
   ],
   "note": ""
  },
  {
   "property": "C51",
   "status": "proved",
   "theorems": [
    "C51_accepts_iff",
    "C51_rejects",
    "C51_add_public_key",
    "C51_decodes",
    "C51_multisig_iff",
    "C51_keys_checked_refuted",
    "C51_error_iff",
    "C51_add_error_iff"
   ],
   "note": ""
  },
  {
   "property": "C52",
   "status": "proved",
   "theorems": [
    "C52_encrypt",
    "C52_decrypt_iff",
    "C52_roundtrip",
    "C52_too_short",
    "C52_no_randomness",
    "C52_block_size",
    "C52_tamper_refuted",
    "C52_error_iff"
   ],
   "note": ""
  },
  {
   "property": "C53",
   "status": "proved",
   "theorems": [
    "C53_overwrites",
    "C53_leaves_clear_text",
    "C53_intact_iff",
    "C53_twice_refuted"
   ],
   "note": ""
  },
  {
   "property": "C54",
   "status": "proved",
   "theorems": [
    "C54_data_bytes",
    "C54_hash_puzzle_bytes",
    "C54_error_iff",
    "C54_data_output",
    "C54_data_output_decodes",
    "C54_data_output_fails_iff",
    "C54_single_part",
    "C54_hash_puzzle"
   ],
   "note": ""
  },
  {
   "property": "C55",
   "status": "proved",
   "theorems": [
    "C55_sizes",
    "C55_compositions"
   ],
   "note": ""
  },
  {
   "property": "C56",
   "status": "proved",
   "theorems": [
    "C56_parse_value",
    "C56_layout",
    "C56_append_moves",
    "C56_append_in_place",
    "C56_append_effect",
    "C56_short_append_safe",
    "C56_append_changes_buffer",
    "C56_never_independent",
    "C56_buffer_write_changes_script",
    "C56_builders_value"
   ],
   "note": "The expectation is false for every parsed transaction (C56_never_independent); exact effect of every append on every script and on the caller's buffer."
  },
  {
   "property": "C57",
   "status": "proved",
   "theorems": [
    "C57_value",
    "C57_argument_kept",
    "C57_writes",
    "C57_no_spare",
    "C57_buffer_intact_refuted"
   ],
   "note": "The expectation is refuted; exact set of bytes written, for every layout."
  },
  {
   "property": "C58",
   "status": "proved",
   "theorems": [
    "C58_accepts_iff",
    "C58_panics_iff",
    "C58_threshold_refuted",
    "C58_opcodes_refuted",
    "C58_not_own_scripts",
    "C58_error_iff"
   ],
   "note": ""
  },
  {
   "property": "C59",
   "status": "proved",
   "theorems": [
    "C59_text",
    "C59_unit_monotone",
    "C59_range",
    "C59_shows_below_1000_refuted",
    "C59_zeta_range_refuted",
    "C59_not_finite"
   ],
   "note": ""
  },
  {
   "property": "C60",
   "status": "proved",
   "theorems": [
    "C60_accuracy",
    "C60_monotone",
    "C60_ticker",
    "C60_special",
    "C60_negative",
    "C60_period",
    "C60_difficulty",
    "C60_accuracy_any_period"
   ],
   "note": ""
  },
  {
   "property": "C61",
   "status": "proved",
   "theorems": [
    "C61_input_text",
    "C61_output_text",
    "C61_numerals",
    "C61_input_injective",
    "C61_output_injective",
    "C61_panics_iff",
    "C61_total_refuted"
   ],
   "note": "Exact text, injectivity, exact panic domain; printing a fresh unsigned input panics (C61_total_refuted)."
  },
  {
   "property": "C62",
   "status": "proved",
   "theorems": [
    "C62_apply_value_semantics",
    "C62_sign_value_semantics",
    "C62_auto_value_semantics",
    "C62_new_inputs_do_not_share",
    "C62_write_shows_everywhere",
    "C62_sign_frame",
    "C62_auto_frame",
    "C62_independent_inputs_refuted"
   ],
   "note": "Heap model refines the value model without sharing; independence with sharing is refuted."
  },
  {
   "property": "C63",
   "status": "proved",
   "theorems": [
    "C63_no_signature_hash",
    "C63_sign_fails",
    "C63_sign_auto_silent"
   ],
   "note": ""
  },
  {
   "property": "C64",
   "status": "proved",
   "theorems": [
    "C64_full_machine",
    "C64_sign_auto_unlocks",
    "C64_sign_unlocks",
    "C64_workflow"
   ],
   "note": "Key and verifier are arbitrary functions related by `honest`; the script machine of `accepted` covers the opcodes of P2PKH, and C64_full_machine carries the result to the larger machine of C78."
  },
  {
   "property": "C65",
   "status": "proved",
   "theorems": [
    "C65_last_signature_wins",
    "C65_panics_iff",
    "C65_again",
    "C65_auto_commutes",
    "C65_sign_commutes"
   ],
   "note": ""
  },
  {
   "property": "C66",
   "status": "proved",
   "theorems": [
    "C66_parts_accepted",
    "C66_repeated_tail",
    "C66_root_determines",
    "C66_same_count",
    "C66_extension_repeats",
    "C66_inner_node_accepted"
   ],
   "note": "Equal tree depth is a hypothesis of C66_root_determines (inner nodes and leaves are not told apart, see C66_inner_node_accepted)."
  },
  {
   "property": "C67",
   "status": "proved",
   "theorems": [
    "C67_checked_address",
    "C67_text_unique",
    "C67_checked_payment",
    "C67_payment_iff",
    "C67_validate_iff_ones",
    "C67_script_address_refused",
    "C67_other_versions_refused"
   ],
   "note": ""
  },
  {
   "property": "C68",
   "status": "proved",
   "theorems": [
    "C68_error_iff",
    "C68_hex_outcome",
    "C68_script_from_hex",
    "C68_script_round_trip",
    "C68_hex_unique",
    "C68_decode_string_parts",
    "C68_output_from_pkh",
    "C68_output_from_address",
    "C68_same_output",
    "C68_input_from_utxo",
    "C68_no_panic",
    "C68_error_more"
   ],
   "note": ""
  },
  {
   "property": "C69",
   "status": "proved",
   "theorems": [
    "C69_from_asm_iff",
    "C69_fails",
    "C69_unambiguous",
    "C69_names",
    "C69_extra_space",
    "C69_to_asm",
    "C69_core_unique",
    "C69_round_trip_any",
    "C69_same_elements_refuted"
   ],
   "note": "The exact result for every text and every decodable script; C69_same_elements_refuted shows that empty elements at the ends are lost."
  },
  {
   "property": "C70",
   "status": "proved",
   "theorems": [
    "C70_value",
    "C70_layout",
    "C70_kinds",
    "C70_data_is_window",
    "C70_write_data",
    "C70_append_data",
    "C70_write_opcode",
    "C70_pkh_value",
    "C70_pkh_shared"
   ],
   "note": "C70_value ties the memory-level decoder to the value-level one of C10/C11; slices are any well-formed ones."
  },
  {
   "property": "C71",
   "status": "proved",
   "theorems": [
    "C71_independent_iff",
    "C71_constructed",
    "C71_schedule",
    "C71_copy_one",
    "C71_copy_both",
    "C71_copy_full"
   ],
   "note": "C71_independent_iff is an exact characterisation; C12_builder_bytes says what run_call appends. Temporaries of EncodeParts are not in the heap."
  },
  {
   "property": "C72",
   "status": "proved",
   "theorems": [
    "C72_same_result",
    "C72_parts_same_result",
    "C72_work",
    "C72_parts_work",
    "C72_parts_sizes",
    "C72_sizes",
    "C72_counts",
    "C72_exact",
    "C72_parts_exact"
   ],
   "note": "The counters count loop iterations, not machine steps; copying and hex-encoding inside an iteration are not counted. C72_example shows the bound attained."
  },
  {
   "property": "C73",
   "status": "proved",
   "theorems": [
    "C73_serialises",
    "C73_round_trip_iff",
    "C73_case",
    "C73_careful_round_trip",
    "C73_reference_unchecked_refuted"
   ],
   "note": "Programs that write to the exported fields of inputs and outputs directly are outside the set. C73_reference_unchecked_refuted is the counterexample to an unconditional round trip."
  },
  {
   "property": "C74",
   "status": "proved",
   "theorems": [
    "C74_read_only",
    "C74_both_add",
    "C74_put"
   ],
   "note": "The elements are pointers; what happens to the pointed-to Input or Output is C62/C71. Parts of the lists (ins[1:]) are C104."
  },
  {
   "property": "C75",
   "status": "proved",
   "theorems": [
    "C75_same",
    "C75_error_iff",
    "C75_panic_iff",
    "C75_input_error_iff",
    "C75_output_error_iff",
    "C75_text"
   ],
   "note": "Capacities below 2^62, as in C36. hex.DecodeString decodes in place: the spare bytes are the second half of the text plus the allocator slack."
  },
  {
   "property": "C76",
   "status": "proved",
   "theorems": [
    "C76_reads",
    "C76_header",
    "C76_coinbase",
    "C76_root",
    "C76_difficulty",
    "C76_branches",
    "C76_transaction",
    "C76_sighash",
    "C76_reported_refuted"
   ],
   "note": ""
  },
  {
   "property": "C77",
   "status": "proved",
   "theorems": [
    "C77_panics_iff",
    "C77_bytes_iff",
    "C77_size"
   ],
   "note": ""
  },
  {
   "property": "C78",
   "status": "proved",
   "theorems": [
    "C78_address",
    "C78_pay_to",
    "C78_public_key",
    "C78_unlocking_script",
    "C78_hash_puzzle",
    "C78_hash_puzzle_size",
    "C78_data",
    "C78_hash_size",
    "C78_only_owner_refuted",
    "C78_long_hash",
    "C78_long_hash_refuted"
   ],
   "note": "The machine S_Demand.v covers the words that occur in the library's scripts (pushes, OP_1..16, DUP, HASH160, EQUAL, EQUALVERIFY, CHECKSIG, CHECKMULTISIG, RETURN after Genesis); the signature check is an arbitrary relation."
  },
  {
   "property": "C79",
   "status": "proved",
   "theorems": [
    "C79_demand",
    "C79_any_m",
    "C79_too_few",
    "C79_p2sh",
    "C79_any_order_refuted",
    "C79_no_keys",
    "C79_imported"
   ],
   "note": "At most 16 keys of 1..75 bytes (compressed keys have 33): beyond that the count is not a number opcode (C51)."
  },
  {
   "property": "C80",
   "status": "proved",
   "theorems": [
    "C80_no_race",
    "C80_answers",
    "C80_as_in_turn",
    "C80_any_order",
    "C80_rest_untouched",
    "C80_can_finish",
    "C80_shared_signer_races",
    "C80_transaction_sign_races",
    "C80_lost_output",
    "C80_torn_bytes",
    "C80_add_alone",
    "C80_adds",
    "C80_lost_add",
    "C80_add_apart"
   ],
   "note": "Sequentially consistent interleavings of accesses to fields (Go guarantees these for programs without races; for racy programs they are among the executions). A script or a slice of pointers is one cell. In C80_answers .. C80_rest_untouched Transaction.Sign/SignAuto are included although they write back the struct (the same values): a race in Go's sense, shown by C80_transaction_sign_races."
  },
  {
   "property": "C81",
   "status": "proved",
   "theorems": [
    "C81_alone",
    "C81_once_sorted",
    "C81_sorted_keys_stay",
    "C81_unsorted_keys",
    "C81_wrong_script",
    "C81_key_lost",
    "C81_insertion_sort"
   ],
   "note": "Interleavings as in C80; an element of PublicKeys is one cell. Calls on ordered keys still write PublicKeys back (the same slice header), a benign race in Go's sense. Sorting strategies are arbitrary decision trees of Less and Swap."
  },
  {
   "property": "C82",
   "status": "proved",
   "theorems": [
    "C82_alone",
    "C82_no_room",
    "C82_same_first",
    "C82_room_races",
    "C82_wrong_branch",
    "C82_wrong_root"
   ],
   "note": "Interleavings as in C80; a byte is one cell."
  },
  {
   "property": "C83",
   "status": "proved",
   "theorems": [
    "C83_inclusion_sound",
    "C83_block",
    "C83_commits",
    "C83_wallet",
    "C83_target",
    "C83_inclusion"
   ],
   "note": "S_Mining.v. The numbers of branches must be equal: with different numbers a 64-byte coinbase could pass for an inner node. The GetMerkleBranches placeholder is not read."
  },
  {
   "property": "C84",
   "status": "proved",
   "theorems": [
    "C84_accepted",
    "C84_accepted_only_if",
    "C84_chain",
    "C84_no_double_spend",
    "C84_reference",
    "C84_id_before_signing",
    "C84_mined",
    "C84_no_money_accepted",
    "C84_no_money_created",
    "C84_fee_accepted",
    "C84_fee_wallet"
   ],
   "note": "S_Chain.v has the node and the wallet. The node's rules on coinbase maturity, lock times, sizes and fees above zero are left out; scripts run on the machine of C64. Signature schemes are arbitrary relations under which the key's signatures verify."
  },
  {
   "property": "C85",
   "status": "proved",
   "theorems": [
    "C85_survives",
    "C85_breaks",
    "C85_joint",
    "C85_all_needed"
   ],
   "note": "S_Joint.v has the calls and what a flag allows; the node is that of C84. C85_breaks names the two digests for which the one signature would have to verify, or the colliding messages; unforgeability itself is not assumed. Parties work on one value in one goroutine; concurrent use is C80."
  },
  {
   "property": "C86",
   "status": "proved",
   "theorems": [
    "C86_window",
    "C86_cut_elsewhere",
    "C86_local",
    "C86_one_byte",
    "C86_forge",
    "C86_same_start"
   ],
   "note": "The cipher is an arbitrary function on 16-byte blocks, so nothing is said about its strength; the buffer left behind by Decrypt (its second effect) is what C86_local and C86_one_byte speak of, since base64 may refuse the changed text."
  },
  {
   "property": "C87",
   "status": "proved",
   "theorems": [
    "C87_separate",
    "C87_old_stays",
    "C87_races",
    "C87_lost",
    "C87_mixed",
    "C87_neighbour"
   ],
   "note": "Sequentially consistent interleavings of single accesses; a slice header is read and written in one access (C87_races shows that the other cases are races, of which Go promises nothing)."
  },
  {
   "property": "C88",
   "status": "proved",
   "theorems": [
    "C88_sha256",
    "C88_ripemd160",
    "C88_sha256d",
    "C88_hash160",
    "C88_primes"
   ],
   "note": "The specification (S_Hash.v) is written from the standards: bitwise functions, constants as digits of roots of primes (C88_primes shows the list is the first 64), padding, blocks. The iff statements say the modelled function is exactly it, for all messages. That Go's crypto/sha256 and x/crypto/ripemd160 compute the modelled function is trusted (libraries outside the repo)."
  },
  {
   "property": "C89",
   "status": "proved",
   "theorems": [
    "C89_error",
    "C89_success",
    "C89_panics_iff",
    "C89_unchecked",
    "C89_fill_in",
    "C89_internal",
    "C89_remote"
   ],
   "note": "The signer is universally quantified over functions of the objects it can reach; the remote signer is a program over the library's own ToBytes and NewFromBytes. Slices of pointers are lists here; their spare capacity is the subject of C74."
  },
  {
   "property": "C90",
   "status": "proved",
   "theorems": [
    "C90_alone",
    "C90_apart",
    "C90_races",
    "C90_one_then_other",
    "C90_one_block",
    "C90_mixed",
    "C90_two_readers_refuted"
   ],
   "note": "Interleavings as in C80; a byte is one cell, read and written in rising order (the assembly of xorBytes handles several at once). The one-block theorem has no counterpart for longer texts because a call may feed clear text of the other into its register."
  },
  {
   "property": "C91",
   "status": "proved",
   "theorems": [
    "C91_call",
    "C91_sign",
    "C91_unsigned",
    "C91_signed",
    "C91_fee",
    "C91_unsigned_budget",
    "C91_total"
   ],
   "note": "Signature lengths are a hypothesis on the key (ECDSA is a parameter); 74 is the bound up to which the pushes have one-byte headers. Relay policy and dust limits are not modelled."
  },
  {
   "property": "C92",
   "status": "proved",
   "theorems": [
    "C92_relay",
    "C92_sign",
    "C92_untold",
    "C92_other_inputs",
    "C92_lie"
   ],
   "note": "The assignment of PreviousTxSatoshis and PreviousTxScript is the caller's and is part of the specification. Transactions on the way are taken to be below 2^62 bytes."
  },
  {
   "property": "C93",
   "status": "proved",
   "theorems": [
    "C93_same_code",
    "C93_tx_accepts_iff",
    "C93_tx_agrees",
    "C93_tx_never_differ",
    "C93_tx_round_trip",
    "C93_tx_panics_iff",
    "C93_tx_other_form",
    "C93_parts",
    "C93_parts_same_iff",
    "C93_predicates",
    "C93_public_key_hash",
    "C93_electrum",
    "C93_sign_auto",
    "C93_same_everywhere_refuted"
   ],
   "note": "The expectation that all platforms agree is refuted in two ways (other byte forms, panics); the theorems say exactly where the platforms differ. The functions that depend on the size of int are written once, with the width as a parameter, and at width 64 are proved to be the ones used everywhere else."
  },
  {
   "property": "C94",
   "status": "proved",
   "theorems": [
    "C94_tells_cause",
    "C94_has_text",
    "C94_quotes_address",
    "C94_address_known",
    "C94_names_character",
    "C94_character_known",
    "C94_character_text",
    "C94_names_input",
    "C94_proof_index",
    "C94_names_index_refuted",
    "C94_tx_texts",
    "C94_tx_text_iff",
    "C94_validate_texts",
    "C94_threshold_refuted"
   ],
   "note": "Texts of errors of the key library, the random source and a caller's signer are excluded (own_text); the offset in a base64 error is left open here and given by C106. Two expectations (the index named by MerkleRootFromBranches; the threshold message of the Electrum reader) are refuted."
  },
  {
   "property": "C95",
   "status": "proved",
   "theorems": [
    "C95_same_code",
    "C95_bip276",
    "C95_checksum_ignored_refuted",
    "C95_coinbase",
    "C95_string_parts",
    "C95_decode32"
   ],
   "note": "Removes the simplification that values beside an error are dropped: those functions are modelled with both results and proved to agree with the others. The expectation that the value is unusable is refuted for DecodeBIP276."
  },
  {
   "property": "C96",
   "status": "proved",
   "theorems": [
    "C96_separate",
    "C96_full_copies",
    "C96_old_stays",
    "C96_copies_with_room",
    "C96_any_can_win",
    "C96_copies_race",
    "C96_finds_the_other"
   ],
   "note": "Headers and elements are separate cells; the array the runtime takes for append and its spare capacity are arbitrary. Refuted expectation: a struct copy of a transaction may be used in another goroutine. Copies are made before the goroutines start."
  },
  {
   "property": "C97",
   "status": "proved",
   "theorems": [
    "C97_shown",
    "C97_mixture",
    "C97_unchanged_iff",
    "C97_txid",
    "C97_same_layout",
    "C97_second_read",
    "C97_from_string",
    "C97_independent_refuted"
   ],
   "note": "Any later contents of the array, including a second transaction. Refuted expectation: a parsed transaction is independent of the buffer it was parsed from."
  },
  {
   "property": "C98",
   "status": "proved",
   "theorems": [
    "C98_text_recovered",
    "C98_cipher_learned",
    "C98_key_not_needed",
    "C98_secret_refuted"
   ],
   "note": "The block cipher is an arbitrary length-preserving function; the outsider sees only success or failure of Decrypt. Learning the cipher is a computation with up to 2^32 questions for each four bytes; recovering a text takes 255 for each base64 character."
  },
  {
   "property": "C99",
   "status": "proved",
   "theorems": [
    "C99_third_party",
    "C99_id_final_refuted",
    "C99_replaced",
    "C99_children_lost",
    "C99_nothing_else"
   ],
   "note": "The node is that of C84: consensus rules for scripts, not a relay policy (a policy that asks for shortest pushes or an exact stack refuses the variants made here). verify is any relation."
  },
  {
   "property": "C100",
   "status": "proved",
   "theorems": [
    "C100_sign_iff",
    "C100_sign_auto_iff",
    "C100_every_flag_refuted",
    "C100_wallet",
    "C100_joint"
   ],
   "note": "The rule about flags is the network's, not the library's; the library does not check it. The nodes of C64 and C84 take any flag, this one only six."
  },
  {
   "property": "C101",
   "status": "proved",
   "theorems": [
    "C101_moves",
    "C101_none_redirected",
    "C101_none_anyone_taken",
    "C101_pledges",
    "C101_pledge_safe"
   ],
   "note": "The library has no function that merges transactions: the collector puts the Inputs of the pledges into one list, which the theorem says in so many words. C101_pledge_safe assumes that nothing else verifies under the key (unforgeability, and that the holder signs nothing else)."
  },
  {
   "property": "C102",
   "status": "proved",
   "theorems": [
    "C102_never",
    "C102_exactly",
    "C102_shortest"
   ],
   "note": "Panics of the other functions are characterised in C03, C07, C16, C24 to C26, C30, C32, C39, C40, C48, C49, C58, C60, C61, C75 and C77. Running out of memory is not a panic here. Nil receivers are C105."
  },
  {
   "property": "C103",
   "status": "proved",
   "theorems": [
    "C103_shape",
    "C103_wallet",
    "C103_final",
    "C103_own",
    "C103_one_signature_refuted"
   ],
   "note": "The node's rules are a specification (S_Final.v), not code of the repository; signature scheme and key are arbitrary. The hypothesis only_own (no forged and no second signature) is shown necessary by C103_one_signature_refuted and satisfiable by C103_own and C103_example. Limits of size, maturity and lock times are left out, as in C84."
  },
  {
   "property": "C104",
   "status": "proved",
   "theorems": [
    "C104_read_only",
    "C104_apart",
    "C104_part_append",
    "C104_clip_append",
    "C104_take_out",
    "C104_take_out_anew"
   ],
   "note": "M_Window extends M_Slots (C74) by offsets, capacities and re-slicing. The elements are pointers; what happens to the pointed-to Input or Output is C62/C71."
  },
  {
   "property": "C105",
   "status": "proved",
   "theorems": [
    "C105_live",
    "C105_tx",
    "C105_run",
    "C105_script",
    "C105_redeem",
    "C105_readers",
    "C105_readers_live",
    "C105_signer"
   ],
   "note": "Nil pointers inside lists of inputs and outputs are part of the models of the methods (C30, C39, C102). That a nil private key panics when used is a statement about the key library."
  },
  {
   "property": "C106",
   "status": "proved",
   "theorems": [
    "C106_offset",
    "C106_before",
    "C106_decrypt",
    "C106_tamper",
    "C106_named_refuted"
   ],
   "note": "The decoder is the standard library's; its offsets are modelled from its source and agree with its own test table (C106_example)."
  },
  {
   "property": "C107",
   "status": "proved",
   "theorems": [
    "C107_same_result",
    "C107_one",
    "C107_auto",
    "C107_auto_all",
    "C107_linear",
    "C107_quadratic",
    "C107_refused",
    "C107_again"
   ],
   "note": "Counts the messages given to Sha256d and Hash160 (bytes, not time). What the key's own Sign hashes is outside the code."
  },
  {
   "property": "C108",
   "status": "proved",
   "theorems": [
    "C108_same_result",
    "C108_branches",
    "C108_branches_sizes",
    "C108_build",
    "C108_proof",
    "C108_proof_sizes",
    "C108_refused_early_refuted",
    "C108_new_coinbase",
    "C108_pairs"
   ],
   "note": "Counts the messages given to Sha256d (bytes, not time)."
  }
 ]
}