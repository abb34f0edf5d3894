{
 "claims": [
  {
   "property": "C01",
   "status": "proved",
   "theorems": [
    "C01_hex_round_trip"
   ],
   "note": ""
  },
  {
   "property": "C02",
   "status": "proved",
   "theorems": [
    "C02_hex_decoder"
   ],
   "note": ""
  },
  {
   "property": "C03",
   "status": "proved",
   "theorems": [
    "C03_hex_wrap",
    "C03_hex_wrap_overflow",
    "C03_hex_of_string"
   ],
   "note": ""
  },
  {
   "property": "C04",
   "status": "proved",
   "theorems": [
    "C04_mnemonic_round_trip",
    "C04_empty"
   ],
   "note": ""
  },
  {
   "property": "C05",
   "status": "proved",
   "theorems": [
    "C05_mnemonic_decoder",
    "C05_reencode"
   ],
   "note": ""
  },
  {
   "property": "C06",
   "status": "proved",
   "theorems": [
    "C06_single_blanks_odd_rejected",
    "C06_odd_accepted_with_trailing_blank",
    "C06_even_rejected_with_trailing_blank"
   ],
   "note": ""
  },
  {
   "property": "C07",
   "status": "proved",
   "theorems": [
    "C07_wordlist",
    "C07_mnemonic_injective"
   ],
   "note": ""
  },
  {
   "property": "C08",
   "status": "proved",
   "theorems": [
    "C08_descriptor_roundtrip",
    "C08_descriptor_reencode",
    "C08_descriptor_length"
   ],
   "note": ""
  },
  {
   "property": "C09",
   "status": "proved",
   "theorems": [
    "C09_descriptor_height_loss"
   ],
   "note": ""
  },
  {
   "property": "C10",
   "status": "proved",
   "theorems": [
    "C10_sigtype_always_xmss"
   ],
   "note": ""
  },
  {
   "property": "C11",
   "status": "proved",
   "theorems": [
    "C11_generated_addresses_valid",
    "C11_address_exists"
   ],
   "note": ""
  },
  {
   "property": "C12",
   "status": "proved",
   "theorems": [
    "C12_addressIsValid_exact",
    "C12_checksum_determined"
   ],
   "note": ""
  },
  {
   "property": "C13",
   "status": "proved",
   "theorems": [
    "C13_extended_seed_recreates"
   ],
   "note": ""
  },
  {
   "property": "C14",
   "status": "proved",
   "theorems": [
    "C14_key_layout"
   ],
   "note": ""
  },
  {
   "property": "C15",
   "status": "proved",
   "theorems": [
    "C15_index_codec"
   ],
   "note": ""
  },
  {
   "property": "C16",
   "status": "proved",
   "theorems": [
    "C16_size_height_inverse",
    "C16_height_from_size"
   ],
   "note": ""
  },
  {
   "property": "C17",
   "status": "proved",
   "theorems": [
    "C17_basic_signatures_verify"
   ],
   "note": ""
  },
  {
   "property": "C18",
   "status": "proved",
   "theorems": [
    "C18_fast_signatures_verify"
   ],
   "note": ""
  },
  {
   "property": "C19",
   "status": "proved",
   "theorems": [
    "C19_basic_follows_fast",
    "C19_fast_equals_basic"
   ],
   "note": ""
  },
  {
   "property": "C20",
   "status": "proved",
   "theorems": [
    "C20_skip_equals_sign"
   ],
   "note": ""
  },
  {
   "property": "C21",
   "status": "proved",
   "theorems": [
    "C21_indices_strictly_increase"
   ],
   "note": ""
  },
  {
   "property": "C22",
   "status": "proved",
   "theorems": [
    "C22_exhaustion"
   ],
   "note": ""
  },
  {
   "property": "C23",
   "status": "proved",
   "theorems": [
    "C23_failed_calls"
   ],
   "note": ""
  },
  {
   "property": "C24",
   "status": "proved",
   "theorems": [
    "C24_traversal_safe"
   ],
   "note": ""
  },
  {
   "property": "C25",
   "status": "proved",
   "theorems": [
    "C25_basic_history",
    "C25_basic_index"
   ],
   "note": ""
  },
  {
   "property": "C26",
   "status": "proved",
   "theorems": [
    "C26_verify_total",
    "C26_verify_is_reference"
   ],
   "note": ""
  },
  {
   "property": "C27",
   "status": "proved",
   "theorems": [
    "C27_verify_undefined"
   ],
   "note": ""
  },
  {
   "property": "C28",
   "status": "proved",
   "theorems": [
    "C28_verify_ignores"
   ],
   "note": ""
  },
  {
   "property": "C29",
   "status": "proved",
   "theorems": [
    "C29_wots_complete"
   ],
   "note": ""
  },
  {
   "property": "C30",
   "status": "proved",
   "theorems": [
    "C30_checksum_no_domination",
    "C30_w256_domination"
   ],
   "note": ""
  },
  {
   "property": "C31",
   "status": "proved",
   "theorems": [
    "C31_wots_parameters"
   ],
   "note": ""
  },
  {
   "property": "C32",
   "status": "proved",
   "theorems": [
    "C32_shake128_is_fips202",
    "C32_shake256_is_fips202",
    "C32_shake_unique"
   ],
   "note": ""
  },
  {
   "property": "C33",
   "status": "proved",
   "theorems": [
    "C33_shake_length_prefix"
   ],
   "note": ""
  },
  {
   "property": "C34",
   "status": "proved",
   "theorems": [
    "C34_hash_inputs_separated",
    "C34_addresses_injective",
    "C34_places_separated",
    "C34_library_uses_place_addresses",
    "C34_tree_addresses_unique"
   ],
   "note": ""
  },
  {
   "property": "C35",
   "status": "proved",
   "theorems": [
    "C35_root_is_merkle_root"
   ],
   "note": ""
  },
  {
   "property": "C36",
   "status": "proved",
   "theorems": [
    "C36_pool_indices",
    "C36_current_index"
   ],
   "note": ""
  },
  {
   "property": "C37",
   "status": "proved",
   "theorems": [
    "C37_returned_tree",
    "C37_tree_is_fresh_key"
   ],
   "note": ""
  },
  {
   "property": "C38",
   "status": "proved",
   "theorems": [
    "C38_seed_inputs",
    "C38_same_tree_seed_is_collision"
   ],
   "note": ""
  },
  {
   "property": "C39",
   "status": "proved",
   "theorems": [
    "C39_cache"
   ],
   "note": ""
  },
  {
   "property": "C40",
   "status": "proved",
   "theorems": [
    "C40_failed_launches"
   ],
   "note": ""
  },
  {
   "property": "C41",
   "status": "proved",
   "theorems": [
    "C41_hash_chain_seeds",
    "C41_inputs_distinct"
   ],
   "note": ""
  },
  {
   "property": "C42",
   "status": "proved",
   "theorems": [
    "C42_sha2_256_n",
    "C42_compose"
   ],
   "note": ""
  },
  {
   "property": "C43",
   "status": "proved",
   "theorems": [
    "C43_random_seed",
    "C43_inputs_distinct"
   ],
   "note": ""
  },
  {
   "property": "C44",
   "status": "proved",
   "theorems": [
    "C44_initialize_tree_resets"
   ],
   "note": ""
  },
  {
   "property": "C45",
   "status": "proved",
   "theorems": [
    "C45_authpath_bound"
   ],
   "note": ""
  },
  {
   "property": "C46",
   "status": "proved",
   "theorems": [
    "C46_signature_format"
   ],
   "note": ""
  },
  {
   "property": "C47",
   "status": "proved",
   "theorems": [
    "C47_updateSK_forward",
    "C47_rust_update_sk"
   ],
   "note": ""
  },
  {
   "property": "C48",
   "status": "proved",
   "theorems": [
    "C48_accepted_genuine_or_collision",
    "C48_owner_sig_accepted"
   ],
   "note": ""
  },
  {
   "property": "C49",
   "status": "proved",
   "theorems": [
    "C49_one_time_forgery",
    "C49_one_time_forgery_basic"
   ],
   "note": ""
  },
  {
   "property": "C50",
   "status": "proved",
   "theorems": [
    "C50_race_free"
   ],
   "note": ""
  },
  {
   "property": "C51",
   "status": "proved",
   "theorems": [
    "C51_calls_return",
    "C51_lock_holder_never_waits"
   ],
   "note": ""
  },
  {
   "property": "C52",
   "status": "proved",
   "theorems": [
    "C52_available"
   ],
   "note": ""
  },
  {
   "property": "C53",
   "status": "proved",
   "theorems": [
    "C53_cache_stays_full",
    "C53_empty_cache_is_final"
   ],
   "note": ""
  },
  {
   "property": "C54",
   "status": "proved",
   "theorems": [
    "C54_big_endian_digits",
    "C54_little_endian_digits",
    "C54_decode",
    "C54_round_trip",
    "C54_xor",
    "C54_slice"
   ],
   "note": ""
  },
  {
   "property": "C55",
   "status": "proved",
   "theorems": [
    "C55_hex_seed_backup",
    "C55_mnemonic_backup",
    "C55_signatures_verify",
    "C55_verify_is_reference",
    "C55_basic_signatures_verify",
    "C55_basic_backup"
   ],
   "note": ""
  },
  {
   "property": "C56",
   "status": "proved",
   "theorems": [
    "C56_hex_seed_import",
    "C56_mnemonic_import"
   ],
   "note": ""
  },
  {
   "property": "C57",
   "status": "proved",
   "theorems": [
    "C57_wallet_address",
    "C57_address_strings_total"
   ],
   "note": ""
  },
  {
   "property": "C58",
   "status": "proved",
   "theorems": [
    "C58_sign_open_round_trip",
    "C58_size_checks",
    "C58_js_sign_open_hides_failure",
    "C58_js_extract_message_undefined",
    "C58_js_keys_and_sign"
   ],
   "note": ""
  },
  {
   "property": "C59",
   "status": "proved",
   "theorems": [
    "C59_constructor_checks",
    "C59_key_agreement",
    "C59_histories",
    "C59_size_checks",
    "C59_js_calls"
   ],
   "note": ""
  },
  {
   "property": "C60",
   "status": "proved",
   "theorems": [
    "C60_fast_constructor",
    "C60_basic_constructor",
    "C60_extended_seed_constructor"
   ],
   "note": ""
  },
  {
   "property": "C61",
   "status": "proved",
   "theorems": [
    "C61_short_inputs_fips202",
    "C61_longer_inputs",
    "C61_long_inputs_panic",
    "C61_collisions"
   ],
   "note": ""
  },
  {
   "property": "C62",
   "status": "proved",
   "theorems": [
    "C62_rust_extended_seed_key",
    "C62_rust_fast_constructor",
    "C62_rust_from_extended_seed",
    "C62_rust_fast_key",
    "C62_rust_defaults",
    "C62_rust_key_is_cpp_key"
   ],
   "note": ""
  },
  {
   "property": "C63",
   "status": "proved",
   "theorems": [
    "C63_rust_history",
    "C63_rust_panics",
    "C63_rust_signatures_verify",
    "C63_rust_failed_calls"
   ],
   "note": ""
  },
  {
   "property": "C64",
   "status": "proved",
   "theorems": [
    "C64_rust_verify",
    "C64_rust_verify_default",
    "C64_rust_verify_vs_cpp"
   ],
   "note": ""
  },
  {
   "property": "C65",
   "status": "proved",
   "theorems": [
    "C65_rust_verify_truncates",
    "C65_rust_sign_truncates",
    "C65_rust_cpp_same_histories",
    "C65_rust_cpp_same_verify",
    "C65_rust_signature_is_for_seen_message"
   ],
   "note": ""
  },
  {
   "property": "C66",
   "status": "proved",
   "theorems": [
    "C66_rust_get_address",
    "C66_rust_get_address_is_cpp",
    "C66_rust_address_is_valid",
    "C66_rust_address_is_valid_is_cpp",
    "C66_rust_generated_addresses_valid"
   ],
   "note": ""
  },
  {
   "property": "C67",
   "status": "proved",
   "theorems": [
    "C67_rust_basic_constructor",
    "C67_rust_basic_history",
    "C67_rust_basic_is_fast"
   ],
   "note": ""
  },
  {
   "property": "C68",
   "status": "proved",
   "theorems": [
    "C68_rust_hex_encode",
    "C68_rust_str2bin_utf8",
    "C68_rust_hex_of_string",
    "C68_rust_hex_decode",
    "C68_rust_hex_round_trip",
    "C68_rust_hex_is_cpp"
   ],
   "note": ""
  },
  {
   "property": "C69",
   "status": "proved",
   "theorems": [
    "C69_rust_mnemonic_decoder",
    "C69_rust_mnemonic_round_trip",
    "C69_rust_mnemonic_canonical",
    "C69_rust_mnemonic_is_cpp"
   ],
   "note": ""
  },
  {
   "property": "C70",
   "status": "proved",
   "theorems": [
    "C70_rust_random_seed",
    "C70_rust_random_seed_drops_entropy",
    "C70_rust_hash_chain_is_cpp",
    "C70_rust_hash_chain_repeats",
    "C70_rust_hash_chain_panics",
    "C70_rust_sha2_256_n"
   ],
   "note": ""
  },
  {
   "property": "C71",
   "status": "proved",
   "theorems": [
    "C71_rust_tree_seed_exists",
    "C71_rust_same_tree_seed_is_collision",
    "C71_rust_tree_seeds_overlap",
    "C71_rust_pool_history",
    "C71_rust_pool_answers",
    "C71_rust_pool_bad_height",
    "C71_rust_pool_high_trees"
   ],
   "note": ""
  },
  {
   "property": "C72",
   "status": "proved",
   "theorems": [
    "C72_rust_dilithium_new",
    "C72_rust_dilithium_round_trip",
    "C72_rust_extract",
    "C72_rust_extract_is_swapped",
    "C72_rust_kyber_new",
    "C72_rust_kyber_history",
    "C72_rust_kyber_agreement",
    "C72_rust_kyber_default"
   ],
   "note": ""
  },
  {
   "property": "C73",
   "status": "proved",
   "theorems": [
    "C73_verify_usable",
    "C73_verify_unusable",
    "C73_verify_unsized",
    "C73_basic_usable",
    "C73_basic_unusable",
    "C73_basic_unsized",
    "C73_lost_bits",
    "C73_power_of_two_injective",
    "C73_fast_usable",
    "C73_fast_unusable",
    "C73_fast_unsized"
   ],
   "note": ""
  },
  {
   "property": "C74",
   "status": "proved",
   "theorems": [
    "C74_no_use_after_free",
    "C74_living_pool",
    "C74_destructor_returns",
    "C74_constructor"
   ],
   "note": ""
  },
  {
   "property": "C75",
   "status": "proved",
   "theorems": [
    "C75_address_binds_key",
    "C75_address_binds_key_rust",
    "C75_address_authenticates"
   ],
   "note": ""
  },
  {
   "property": "C76",
   "status": "proved",
   "theorems": [
    "C76_rust_accepted_genuine_or_collision",
    "C76_rust_one_time_forgery"
   ],
   "note": ""
  },
  {
   "property": "C77",
   "status": "proved",
   "theorems": [
    "C77_random_seed",
    "C77_default_size",
    "C77_fails_closed",
    "C77_seed_makes_key"
   ],
   "note": ""
  },
  {
   "property": "C78",
   "status": "proved",
   "theorems": [
    "C78_newest_copy_follows_reference",
    "C78_stale_copy_signature",
    "C78_copy_corrupts_original",
    "C78_copy_outlives_original",
    "C78_original_outlives_copy",
    "C78_reinitialised_copy_is_independent"
   ],
   "note": ""
  },
  {
   "property": "C79",
   "status": "proved",
   "theorems": [
    "C79_moves_are_safe",
    "C79_factory",
    "C79_moved_from_still_signs"
   ],
   "note": ""
  },
  {
   "property": "C80",
   "status": "proved",
   "theorems": [
    "C80_out_of_memory",
    "C80_wiped_object",
    "C80_no_reuse_with_any_traversal_state"
   ],
   "note": ""
  },
  {
   "property": "C81",
   "status": "proved",
   "theorems": [
    "C81_store_before_release",
    "C81_release_before_store_reuses",
    "C81_spent_key_restored_carelessly",
    "C81_safe_life",
    "C81_lost_signature"
   ],
   "note": ""
  },
  {
   "property": "C82",
   "status": "proved",
   "theorems": [
    "C82_erasure",
    "C82_sign_calls",
    "C82_basic_sign_calls",
    "C82_verify_calls"
   ],
   "note": ""
  },
  {
   "property": "C83",
   "status": "proved",
   "theorems": [
    "C83_locked_schedules",
    "C83_locked_no_reuse",
    "C83_race_reuses_key",
    "C83_race_other_damage"
   ],
   "note": ""
  },
  {
   "property": "C84",
   "status": "proved",
   "theorems": [
    "C84_erasure",
    "C84_key_generation_calls",
    "C84_supported_keys"
   ],
   "note": ""
  },
  {
   "property": "C85",
   "status": "proved",
   "theorems": [
    "C85_same_on_both_machines",
    "C85_rust_same_on_both_machines",
    "C85_plain_copy_differs"
   ],
   "note": ""
  },
  {
   "property": "C86",
   "status": "proved",
   "theorems": [
    "C86_double_is_exact",
    "C86_binary64_is_exact",
    "C86_single_is_exact",
    "C86_binary32_is_exact",
    "C86_exactness_needed"
   ],
   "note": ""
  },
  {
   "property": "C87",
   "status": "proved",
   "theorems": [
    "C87_verify_stack_suffices",
    "C87_verify_stack_needed",
    "C87_sign_stack",
    "C87_new_stack",
    "C87_basic_sign_stack",
    "C87_basic_new_stack"
   ],
   "note": ""
  },
  {
   "property": "C88",
   "status": "proved",
   "theorems": [
    "C88_handlers",
    "C88_python_errors",
    "C88_pool_errors"
   ],
   "note": ""
  },
  {
   "property": "C89",
   "status": "proved",
   "theorems": [
    "C89_erasure",
    "C89_fast_calls_are_tree_calls",
    "C89_basic_calls_are_tree_calls",
    "C89_one_input_per_address",
    "C89_key_generation_calls_once",
    "C89_no_call_missing_from_log"
   ],
   "note": ""
  },
  {
   "property": "C90",
   "status": "proved",
   "theorems": [
    "C90_erasure",
    "C90_verification_calls",
    "C90_accepted_signature_verdict",
    "C90_accepted_signature_verdict_fast",
    "C90_genuine_iff_calls_repeated",
    "C90_every_forgery",
    "C90_no_call_missing_from_log"
   ],
   "note": ""
  },
  {
   "property": "C91",
   "status": "proved",
   "theorems": [
    "C91_fast_prf_and_message_calls",
    "C91_basic_prf_and_message_calls",
    "C91_verify_message_calls"
   ],
   "note": ""
  },
  {
   "property": "C92",
   "status": "proved",
   "theorems": [
    "C92_fast_hash_calls_reveal_only_digits",
    "C92_setIndex_calls_reveal_nothing",
    "C92_basic_hash_calls_reveal_only_digits"
   ],
   "note": ""
  },
  {
   "property": "C93",
   "status": "proved",
   "theorems": [
    "C93_used_trees_never_come_again",
    "C93_quiet_restart_continues",
    "C93_unstored_tree_comes_again"
   ],
   "note": ""
  },
  {
   "property": "C94",
   "status": "proved",
   "theorems": [
    "C94_reused_index_forges",
    "C94_port_accepts_forgeries",
    "C94_heights_share_one_time_keys",
    "C94_smaller_w_gives_the_key_away"
   ],
   "note": ""
  },
  {
   "property": "C95",
   "status": "proved",
   "theorems": [
    "C95_restore_rewinds",
    "C95_restore_reuses_key",
    "C95_assigned_object",
    "C95_self_assignment"
   ],
   "note": ""
  },
  {
   "property": "C96",
   "status": "proved",
   "theorems": [
    "C96_hex_truncated",
    "C96_mnemonic_truncated",
    "C96_mnemonic_bad_length",
    "C96_every_truncation",
    "C96_truncated_hex_backup_rejected",
    "C96_accepted_truncation",
    "C96_truncated_mnemonic_other_wallet",
    "C96_decoder",
    "C96_good_mnemonic_exact",
    "C96_garbage_accepted",
    "C96_verify_never_wrong",
    "C96_verify_enough_memory",
    "C96_address",
    "C96_basic_sign"
   ],
   "note": ""
  },
  {
   "property": "C97",
   "status": "proved",
   "theorems": [
    "C97_root_commits_to_key",
    "C97_signatures_agree_or_collide",
    "C97_one_signature",
    "C97_signature_binds_message",
    "C97_one_tree"
   ],
   "note": ""
  },
  {
   "property": "C98",
   "status": "proved",
   "theorems": [
    "C98_public_key_is_rfc",
    "C98_public_key_is_rfc_fast",
    "C98_signatures_are_rfc",
    "C98_verify_is_rfc"
   ],
   "note": ""
  },
  {
   "property": "C99",
   "status": "proved",
   "theorems": [
    "C99_rust_verify_is_rfc",
    "C99_rust_signatures_are_rfc",
    "C99_standard_verifiers_reject",
    "C99_rust_signatures_agree_or_collide",
    "C99_rust_one_signature",
    "C99_rust_binds_seen_message"
   ],
   "note": ""
  },
  {
   "property": "C100",
   "status": "proved",
   "theorems": [
    "C100_safe_policy",
    "C100_spent_key",
    "C100_careless_policies",
    "C100_tall_keys",
    "C100_safe_life",
    "C100_lost_signature"
   ],
   "note": ""
  },
  {
   "property": "C101",
   "status": "proved",
   "theorems": [
    "C101_moves_are_invisible",
    "C101_moved_signatures",
    "C101_port_panics"
   ],
   "note": ""
  },
  {
   "property": "C102",
   "status": "proved",
   "theorems": [
    "C102_w256_forges",
    "C102_w256_only_way",
    "C102_every_digest_slides",
    "C102_other_parameters_resist"
   ],
   "note": ""
  },
  {
   "property": "C103",
   "status": "proved",
   "theorems": [
    "C103_mixed_life",
    "C103_release_before_store_reuses",
    "C103_safe_life"
   ],
   "note": ""
  },
  {
   "property": "C104",
   "status": "proved",
   "theorems": [
    "C104_value_uses_these_inputs",
    "C104_key_generation_inputs_distinct",
    "C104_verification_inputs_distinct"
   ],
   "note": ""
  },
  {
   "property": "C105",
   "status": "proved",
   "theorems": [
    "C105_address_bytes",
    "C105_tree_address",
    "C105_fields_separated"
   ],
   "note": ""
  }
 ]
}