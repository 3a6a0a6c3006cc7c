{
 "claims": [
  {
   "property": "C01",
   "status": "proved",
   "theorems": [
    "C01_round_trip",
    "C01_no_wrong_plaintext"
   ],
   "note": ""
  },
  {
   "property": "C02",
   "status": "proved",
   "theorems": [
    "C02_round_trip",
    "C02_small_block_refuted"
   ],
   "note": ""
  },
  {
   "property": "C03",
   "status": "proved",
   "theorems": [
    "C03_block_exact",
    "C03_small_blocks",
    "C03_decrypt_exact"
   ],
   "note": ""
  },
  {
   "property": "C04",
   "status": "proved",
   "theorems": [
    "C04_label_binding"
   ],
   "note": ""
  },
  {
   "property": "C05",
   "status": "proved",
   "theorems": [
    "C05_unpad_exact",
    "C05_decrypt_exact"
   ],
   "note": ""
  },
  {
   "property": "C06",
   "status": "proved",
   "theorems": [
    "C06_pad_wellformed",
    "C06_pad_outcomes",
    "C06_pad_keeps_random_bytes",
    "C06_pad_nonzero_draw",
    "C06_pad_rng_error",
    "C06_pad_exact",
    "C06_pad_cases"
   ],
   "note": ""
  },
  {
   "property": "C07",
   "status": "proved",
   "theorems": [
    "C07_private_is_power",
    "C07_decrypt_encrypt",
    "C07_encrypt_decrypt",
    "C07_precisions",
    "C07_precisions_blinded"
   ],
   "note": ""
  },
  {
   "property": "C08",
   "status": "proved",
   "theorems": [
    "C08_history",
    "C08_history_total"
   ],
   "note": ""
  },
  {
   "property": "C09",
   "status": "proved",
   "theorems": [
    "C09_raw",
    "C09_decrypt",
    "C09_sign",
    "C09_sign_pss"
   ],
   "note": ""
  },
  {
   "property": "C10",
   "status": "proved",
   "theorems": [
    "C10_checked",
    "C10_signatures",
    "C10_decryptions"
   ],
   "note": ""
  },
  {
   "property": "C11",
   "status": "proved",
   "theorems": [
    "C11_raw",
    "C11_schemes",
    "C11_untouched"
   ],
   "note": ""
  },
  {
   "property": "C12",
   "status": "proved",
   "theorems": [
    "C12_scheme",
    "C12_keys",
    "C12_other_precision",
    "C12_wide_modulus_refuted"
   ],
   "note": ""
  },
  {
   "property": "C13",
   "status": "proved",
   "theorems": [
    "C13_block_exact",
    "C13_pad_exact",
    "C13_verify_exact",
    "C13_rfc"
   ],
   "note": ""
  },
  {
   "property": "C14",
   "status": "proved",
   "theorems": [
    "C14_deterministic",
    "C14_unique"
   ],
   "note": ""
  },
  {
   "property": "C15",
   "status": "proved",
   "theorems": [
    "C15_scheme",
    "C15_keys"
   ],
   "note": ""
  },
  {
   "property": "C16",
   "status": "proved",
   "theorems": [
    "C16_block_exact",
    "C16_scheme",
    "C16_keys",
    "C16_scheme_exact",
    "C16_keys_exact",
    "C16_extra_octet_refuted"
   ],
   "note": ""
  },
  {
   "property": "C17",
   "status": "proved",
   "theorems": [
    "C17_keys_in_range",
    "C17_scheme_malleable",
    "C17_scheme_range_refuted"
   ],
   "note": ""
  },
  {
   "property": "C18",
   "status": "proved",
   "theorems": [
    "C18_pss_strict",
    "C18_pkcs1_value_and_limbs_only",
    "C18_pkcs1_limbs_needed",
    "C18_pkcs1_length_refuted"
   ],
   "note": ""
  },
  {
   "property": "C19",
   "status": "proved",
   "theorems": [
    "C19_oaep_strict",
    "C19_oaep_digest_strict",
    "C19_pkcs1_value_only",
    "C19_pkcs1_length_refuted"
   ],
   "note": ""
  },
  {
   "property": "C20",
   "status": "proved",
   "theorems": [
    "C20_encrypt",
    "C20_sign",
    "C20_sign_any"
   ],
   "note": ""
  },
  {
   "property": "C21",
   "status": "proved",
   "theorems": [
    "C21_i2osp",
    "C21_left_pad"
   ],
   "note": ""
  },
  {
   "property": "C22",
   "status": "proved",
   "theorems": [
    "C22_mgf1",
    "C22_involutive",
    "C22_limit",
    "C22_mask_length"
   ],
   "note": ""
  },
  {
   "property": "C23",
   "status": "proved",
   "theorems": [
    "C23_oaep_encode",
    "C23_oaep_decode",
    "C23_oaep_encrypt",
    "C23_oaep_decrypt",
    "C23_pss_encode",
    "C23_pss_check",
    "C23_pss_sign",
    "C23_pss_decision",
    "C23_pkcs1_decision"
   ],
   "note": ""
  },
  {
   "property": "C24",
   "status": "proved",
   "theorems": [
    "C24_prefix_is_der",
    "C24_bound_is_exact",
    "C24_panics",
    "C24_injective"
   ],
   "note": ""
  },
  {
   "property": "C25",
   "status": "proved",
   "theorems": [
    "C25_exact",
    "C25_result",
    "C25_new",
    "C25_unchecked",
    "C25_oversize_encrypt",
    "C25_oversize_encrypt_digest",
    "C25_oversize_verifies",
    "C25_refused_keys"
   ],
   "note": ""
  },
  {
   "property": "C26",
   "status": "proved",
   "theorems": [
    "C26_exact",
    "C26_valid",
    "C26_primality_refuted",
    "C26_product_refuted"
   ],
   "note": ""
  },
  {
   "property": "C27",
   "status": "proved",
   "theorems": [
    "C27_exact",
    "C27_no_panic",
    "C27_result",
    "C27_prime_one",
    "C27_panic_refuted",
    "C27_wide_prime",
    "C27_empty",
    "C27_empty_never_ok",
    "C27_single_prime",
    "C27_two_primes"
   ],
   "note": ""
  },
  {
   "property": "C28",
   "status": "proved",
   "theorems": [
    "C28_sound",
    "C28_total",
    "C28_complete",
    "C28_complete_nist",
    "C28_zero_d_refuted"
   ],
   "note": ""
  },
  {
   "property": "C29",
   "status": "proved",
   "theorems": [
    "C29_pq_exact",
    "C29_pq_result",
    "C29_pq_equal",
    "C29_pq_no_panic",
    "C29_pq_even",
    "C29_primes_exact",
    "C29_primes_result",
    "C29_primes_rejects",
    "C29_primes_no_panic",
    "C29_primes_even",
    "C29_panic_refuted"
   ],
   "note": ""
  },
  {
   "property": "C30",
   "status": "proved",
   "theorems": [
    "C30_generated_keys_are_valid",
    "C30_default_exponent",
    "C30_any_exponent",
    "C30_refused_sizes",
    "C30_multi_prime"
   ],
   "note": ""
  },
  {
   "property": "C31",
   "status": "proved",
   "theorems": [
    "C31_even_exponent_never_returns",
    "C31_stuck"
   ],
   "note": ""
  },
  {
   "property": "C32",
   "status": "proved",
   "theorems": [
    "C32_boundary",
    "C32_up_front",
    "C32_errors"
   ],
   "note": ""
  },
  {
   "property": "C33",
   "status": "proved",
   "theorems": [
    "C33_private_round_trip",
    "C33_public_round_trip",
    "C33_multi_prime_refused",
    "C33_equal_primes_refused",
    "C33_every_valid_key_refuted"
   ],
   "note": ""
  },
  {
   "property": "C34",
   "status": "proved",
   "theorems": [
    "C34_exact",
    "C34_errors",
    "C34_pss_signing_keys",
    "C34_pss_verifying_keys",
    "C34_pkcs1v15_signing_keys",
    "C34_pkcs1v15_verifying_keys",
    "C34_pkcs1v15_refuses_pss"
   ],
   "note": ""
  },
  {
   "property": "C35",
   "status": "proved",
   "theorems": [
    "C35_try_from",
    "C35_stable",
    "C35_long"
   ],
   "note": ""
  },
  {
   "property": "C36",
   "status": "proved",
   "theorems": [
    "C36_public_equality",
    "C36_private_equality",
    "C36_equivalence",
    "C36_public_hash",
    "C36_private_hash",
    "C36_hash_injective",
    "C36_hash_octets",
    "C36_hash_refuted"
   ],
   "note": ""
  },
  {
   "property": "C37",
   "status": "proved",
   "theorems": [
    "C37_private_key",
    "C37_text",
    "C37_numbers_shown",
    "C37_wrappers",
    "C37_public_objects",
    "C37_parameters"
   ],
   "note": ""
  },
  {
   "property": "C38",
   "status": "proved",
   "theorems": [
    "C38_erased",
    "C38_exact",
    "C38_plain_keys_leave_nothing",
    "C38_primes_remain",
    "C38_everything_erased_refuted",
    "C38_clear_precomputed"
   ],
   "note": ""
  },
  {
   "property": "C39",
   "status": "proved",
   "theorems": [
    "C39_decrypt",
    "C39_sign",
    "C39_verify",
    "C39_encrypt",
    "C39_verify_long_signature_panics"
   ],
   "note": ""
  },
  {
   "property": "C40",
   "status": "proved",
   "theorems": [
    "C40_pkcs1_encrypt",
    "C40_oaep_encrypt",
    "C40_pkcs1_sign",
    "C40_pss_sign"
   ],
   "note": ""
  },
  {
   "property": "C41",
   "status": "proved",
   "theorems": [
    "C41_encrypt",
    "C41_decrypt",
    "C41_pkcs1_sign",
    "C41_pss_sign"
   ],
   "note": ""
  },
  {
   "property": "C42",
   "status": "proved",
   "theorems": [
    "C42_needs_rng",
    "C42_blinding_flag"
   ],
   "note": ""
  },
  {
   "property": "C43",
   "status": "proved",
   "theorems": [
    "C43_pss_signing_key",
    "C43_pss_verifying_key",
    "C43_pkcs1v15_signing_key",
    "C43_pkcs1v15_verifying_key"
   ],
   "note": ""
  },
  {
   "property": "C44",
   "status": "proved",
   "theorems": [
    "C44_identifier",
    "C44_salt_length_is_unique",
    "C44_identifier_verifies"
   ],
   "note": ""
  },
  {
   "property": "C45",
   "status": "proved",
   "theorems": [
    "C45_raw_encrypt",
    "C45_raw_encrypt_fits",
    "C45_wide_input_refuted"
   ],
   "note": ""
  },
  {
   "property": "C46",
   "status": "proved",
   "theorems": [
    "C46_permutation",
    "C46_raw_injective",
    "C46_paddings"
   ],
   "note": ""
  },
  {
   "property": "C47",
   "status": "proved",
   "theorems": [
    "C47_pkcs1_sign",
    "C47_pss_sign",
    "C47_digest_signer",
    "C47_views"
   ],
   "note": ""
  },
  {
   "property": "C48",
   "status": "proved",
   "theorems": [
    "C48_pkcs1_bytes",
    "C48_pss_bytes",
    "C48_pss_bytes_refuted",
    "C48_pkcs1_bytes_iff"
   ],
   "note": ""
  },
  {
   "property": "C49",
   "status": "proved",
   "theorems": [
    "C49_generated_width",
    "C49_generated_signatures",
    "C49_generated_key_verifies_refuted"
   ],
   "note": ""
  },
  {
   "property": "C50",
   "status": "proved",
   "theorems": [
    "C50_private",
    "C50_crt_fields_ignored",
    "C50_public"
   ],
   "note": ""
  },
  {
   "property": "C51",
   "status": "proved",
   "theorems": [
    "C51_public",
    "C51_private",
    "C51_public_reencode",
    "C51_private_reencode"
   ],
   "note": ""
  },
  {
   "property": "C52",
   "status": "proved",
   "theorems": [
    "C52_public",
    "C52_private",
    "C52_never_panics_refuted"
   ],
   "note": ""
  },
  {
   "property": "C53",
   "status": "proved",
   "theorems": [
    "C53_pkcs1v15",
    "C53_oaep",
    "C53_agree",
    "C53_no_label"
   ],
   "note": ""
  },
  {
   "property": "C54",
   "status": "proved",
   "theorems": [
    "C54_pkcs1v15_verify",
    "C54_pss_verify",
    "C54_pkcs1v15_round_trip",
    "C54_pss_round_trip",
    "C54_streaming"
   ],
   "note": ""
  },
  {
   "property": "C55",
   "status": "proved",
   "theorems": [
    "C55_text",
    "C55_text_injective",
    "C55_equality",
    "C55_equal_signatures_verify_alike_refuted"
   ],
   "note": ""
  },
  {
   "property": "C56",
   "status": "proved",
   "theorems": [
    "C56_equality",
    "C56_empty_label"
   ],
   "note": ""
  },
  {
   "property": "C57",
   "status": "proved",
   "theorems": [
    "C57_pkcs1v15",
    "C57_pss",
    "C57_constructors"
   ],
   "note": ""
  },
  {
   "property": "C58",
   "status": "proved",
   "theorems": [
    "C58_pkcs1v15_new",
    "C58_pkcs1v15_unprefixed",
    "C58_pss",
    "C58_pss_blinding",
    "C58_oaep",
    "C58_pss_key_blinding"
   ],
   "note": ""
  },
  {
   "property": "C59",
   "status": "proved",
   "theorems": [
    "C59_default_identifier"
   ],
   "note": ""
  },
  {
   "property": "C60",
   "status": "proved",
   "theorems": [
    "C60_pkcs1v15",
    "C60_unprefixed",
    "C60_pss"
   ],
   "note": ""
  },
  {
   "property": "C61",
   "status": "proved",
   "theorems": [
    "C61_private_accepts",
    "C61_public_accepts",
    "C61_unambiguous",
    "C61_private_round_trip",
    "C61_public_round_trip",
    "C61_pss_signing_key",
    "C61_pss_verifying_key",
    "C61_pkcs1v15_signing_key",
    "C61_pkcs1v15_verifying_key",
    "C61_wrappers_accept",
    "C61_total"
   ],
   "note": ""
  },
  {
   "property": "C62",
   "status": "proved",
   "theorems": [
    "C62_round_trip",
    "C62_accepts",
    "C62_bit_string"
   ],
   "note": ""
  },
  {
   "property": "C63",
   "status": "proved",
   "theorems": [
    "C63_oaep_decrypting_key",
    "C63_oaep_encrypting_key",
    "C63_pkcs1v15_decrypting_key",
    "C63_pkcs1v15_encrypting_key",
    "C63_round_trips",
    "C63_public_layout",
    "C63_private_layout"
   ],
   "note": ""
  },
  {
   "property": "C64",
   "status": "proved",
   "theorems": [
    "C64_private_round_trip",
    "C64_public_round_trip",
    "C64_private_accepts",
    "C64_private_only",
    "C64_public_accepts",
    "C64_public_only",
    "C64_same_as_pkcs8",
    "C64_multi_prime_refused"
   ],
   "note": ""
  },
  {
   "property": "C65",
   "status": "proved",
   "theorems": [
    "C65_identifier",
    "C65_distinct",
    "C65_not_key_identifiers",
    "C65_oid_encoder"
   ],
   "note": ""
  },
  {
   "property": "C66",
   "status": "proved",
   "theorems": [
    "C66_same_program",
    "C66_padding_check",
    "C66_decrypt",
    "C66_reveals_zero_octets",
    "C66_uniform_rejection_refuted"
   ],
   "note": ""
  },
  {
   "property": "C67",
   "status": "proved",
   "theorems": [
    "C67_same_program",
    "C67_same_program_digest",
    "C67_padding_check",
    "C67_padding_check_digest",
    "C67_decrypt",
    "C67_decrypt_digest",
    "C67_reveals_zero_octets",
    "C67_reveals_zero_octets_digest",
    "C67_uniform_rejection_refuted"
   ],
   "note": ""
  },
  {
   "property": "C68",
   "status": "proved",
   "theorems": [
    "C68_same_program",
    "C68_simulated",
    "C68_checked"
   ],
   "note": ""
  },
  {
   "property": "C69",
   "status": "proved",
   "theorems": [
    "C69_same_program",
    "C69_same_program_oaep",
    "C69_same_program_oaep_digest",
    "C69_pkcs1",
    "C69_oaep",
    "C69_oaep_digest",
    "C69_pkcs1_seed_refuted"
   ],
   "note": ""
  },
  {
   "property": "C70",
   "status": "proved",
   "theorems": [
    "C70_same_program",
    "C70_same_program_pss",
    "C70_same_program_pss_digest",
    "C70_pkcs1",
    "C70_pss",
    "C70_pss_digest",
    "C70_pss_salt"
   ],
   "note": ""
  },
  {
   "property": "C71",
   "status": "proved",
   "theorems": [
    "C71_same_program",
    "C71_exponent",
    "C71_reveals_primes",
    "C71_oblivious_refuted"
   ],
   "note": ""
  },
  {
   "property": "C72",
   "status": "proved",
   "theorems": [
    "C72_equality",
    "C72_equivalence",
    "C72_public",
    "C72_private",
    "C72_key_objects",
    "C72_widths_refuted"
   ],
   "note": ""
  },
  {
   "property": "C73",
   "status": "proved",
   "theorems": [
    "C73_public",
    "C73_private",
    "C73_blind_signature",
    "C73_blind_pkcs1v15",
    "C73_blind_pss",
    "C73_blindness"
   ],
   "note": ""
  },
  {
   "property": "C74",
   "status": "proved",
   "theorems": [
    "C74_oaep_hash",
    "C74_oaep_mask_refuted",
    "C74_pss_refuted"
   ],
   "note": ""
  },
  {
   "property": "C75",
   "status": "proved",
   "theorems": [
    "C75_values",
    "C75_presence",
    "C75_components",
    "C75_coefficient",
    "C75_crt_values_refuted"
   ],
   "note": ""
  },
  {
   "property": "C76",
   "status": "proved",
   "theorems": [
    "C76_conversions",
    "C76_clone",
    "C76_deprecated"
   ],
   "note": ""
  },
  {
   "property": "C77",
   "status": "proved",
   "theorems": [
    "C77_no_generator",
    "C77_oaep_seed",
    "C77_pss_salt",
    "C77_pkcs1v15_padding"
   ],
   "note": ""
  },
  {
   "property": "C78",
   "status": "proved",
   "theorems": [
    "C78_operation",
    "C78_one_draw",
    "C78_hidden",
    "C78_counts",
    "C78_not_hidden",
    "C78_uniform_refuted",
    "C78_always_changed_refuted"
   ],
   "note": ""
  },
  {
   "property": "C79",
   "status": "proved",
   "theorems": [
    "C79_blinded_operations",
    "C79_oaep_encryption",
    "C79_pkcs1v15_encryption",
    "C79_pss_signing",
    "C79_single_request_refuted"
   ],
   "note": ""
  },
  {
   "property": "C80",
   "status": "proved",
   "theorems": [
    "C80_padding",
    "C80_seed",
    "C80_salt",
    "C80_distinct",
    "C80_no_zero_octet"
   ],
   "note": ""
  },
  {
   "property": "C81",
   "status": "proved",
   "theorems": [
    "C81_same_program",
    "C81_reveals_primes",
    "C81_exponent_hidden",
    "C81_refusal_position",
    "C81_computations_hidden",
    "C81_oblivious_refuted"
   ],
   "note": ""
  },
  {
   "property": "C82",
   "status": "proved",
   "theorems": [
    "C82_no_fault",
    "C82_checked",
    "C82_decryption",
    "C82_signature",
    "C82_same_octets_refuted",
    "C82_unchecked_betrays"
   ],
   "note": ""
  },
  {
   "property": "C83",
   "status": "proved",
   "theorems": [
    "C83_decrypt_pkcs1v15",
    "C83_decrypt_oaep",
    "C83_sign",
    "C83_encrypt",
    "C83_precomputed_costs_more",
    "C83_precompute_speeds_up_refuted"
   ],
   "note": ""
  },
  {
   "property": "C84",
   "status": "proved",
   "theorems": [
    "C84_sequences",
    "C84_blinding_exact",
    "C84_sharing",
    "C84_blinding_rare",
    "C84_padding_exact",
    "C84_padding_at_once",
    "C84_choose",
    "C84_padding_rare",
    "C84_once_refuted"
   ],
   "note": ""
  },
  {
   "property": "C85",
   "status": "proved",
   "theorems": [
    "C85_export",
    "C85_public",
    "C85_widths",
    "C85_reimported_verifies",
    "C85_repaired",
    "C85_every_key_exports_refuted"
   ],
   "note": ""
  },
  {
   "property": "C86",
   "status": "proved",
   "theorems": [
    "C86_ends",
    "C86_still_drawing",
    "C86_equal_shares",
    "C86_primes_determine",
    "C86_fit_pairs",
    "C86_default_exponent"
   ],
   "note": ""
  },
  {
   "property": "C87",
   "status": "proved",
   "theorems": [
    "C87_pkcs1v15_decrypt",
    "C87_oaep_decrypt",
    "C87_oaep_long_label",
    "C87_pkcs1v15_encrypt",
    "C87_oaep_encrypt",
    "C87_pkcs1v15_sign",
    "C87_pss_sign",
    "C87_pkcs1v15_verify",
    "C87_pss_verify",
    "C87_validate",
    "C87_never"
   ],
   "note": ""
  },
  {
   "property": "C88",
   "status": "proved",
   "theorems": [
    "C88_encrypt",
    "C88_decrypt",
    "C88_sign",
    "C88_from_components",
    "C88_from_p_q",
    "C88_from_primes",
    "C88_verify",
    "C88_verify_outcome",
    "C88_verify_returns",
    "C88_long_signature_refuted",
    "C88_key_types",
    "C88_keys",
    "C88_documents",
    "C88_entry_points",
    "C88_prefix_refuted"
   ],
   "note": ""
  },
  {
   "property": "C89",
   "status": "proved",
   "theorems": [
    "C89_identifier",
    "C89_canonical",
    "C89_produced",
    "C89_errors",
    "C89_unambiguous",
    "C89_same_identifier",
    "C89_verifies",
    "C89_default",
    "C89_not_for_keys"
   ],
   "note": ""
  },
  {
   "property": "C90",
   "status": "proved",
   "theorems": [
    "C90_decryptions",
    "C90_verifications",
    "C90_texts",
    "C90_foreign",
    "C90_signature_errors",
    "C90_prime_count"
   ],
   "note": ""
  },
  {
   "property": "C91",
   "status": "proved",
   "theorems": [
    "C91_results",
    "C91_plaintexts",
    "C91_decrypted_block",
    "C91_blinding",
    "C91_encryption",
    "C91_encryption_octets",
    "C91_dynamic_seed",
    "C91_export",
    "C91_refuted",
    "C91_signing_results",
    "C91_pkcs1v15_signature",
    "C91_pss_signature",
    "C91_crt_factor",
    "C91_input_factor",
    "C91_signature_factor",
    "C91_factor_refuted",
    "C91_erased_raw",
    "C91_erased_decryption",
    "C91_erased_signature",
    "C91_erased_encryption",
    "C91_erased_export",
    "C91_complete_raw",
    "C91_complete_decryption",
    "C91_complete_signature",
    "C91_complete_encryption",
    "C91_complete_export",
    "C91_complete_refused_encryption",
    "C91_complete_refused_decryption",
    "C91_complete_refused_signature",
    "C91_complete_failed_decryption",
    "C91_complete_failed_signature"
   ],
   "note": ""
  },
  {
   "property": "C92",
   "status": "proved",
   "theorems": [
    "C92_private",
    "C92_public",
    "C92_precompute",
    "C92_valid",
    "C92_never_panics",
    "C92_narrow_exponent",
    "C92_wide",
    "C92_kept",
    "C92_kept_results",
    "C92_always_usable_refuted"
   ],
   "note": ""
  },
  {
   "property": "C93",
   "status": "proved",
   "theorems": [
    "C93_pkcs1v15_ciphertexts",
    "C93_oaep_ciphertexts",
    "C93_pkcs1v15_signatures",
    "C93_pkcs1v15_keys",
    "C93_pss_signatures",
    "C93_pss_keys",
    "C93_pss_refuted"
   ],
   "note": ""
  },
  {
   "property": "C94",
   "status": "proved",
   "theorems": [
    "C94_pkcs1v15_ciphertexts",
    "C94_oaep_ciphertexts",
    "C94_pkcs1v15_signatures",
    "C94_pss_signatures",
    "C94_pss_refuted"
   ],
   "note": ""
  },
  {
   "property": "C95",
   "status": "proved",
   "theorems": [
    "C95_same_program",
    "C95_exact",
    "C95_oblivious_refuted"
   ],
   "note": ""
  },
  {
   "property": "C96",
   "status": "proved",
   "theorems": [
    "C96_same_program",
    "C96_exact",
    "C96_guesses",
    "C96_constant_refuted"
   ],
   "note": ""
  },
  {
   "property": "C97",
   "status": "proved",
   "theorems": [
    "C97_question_pkcs1v15",
    "C97_question_oaep",
    "C97_recovered",
    "C97_message",
    "C97_forged",
    "C97_told_apart"
   ],
   "note": ""
  },
  {
   "property": "C98",
   "status": "proved",
   "theorems": [
    "C98_same_program",
    "C98_reveals_primes",
    "C98_exact",
    "C98_oblivious_refuted"
   ],
   "note": ""
  },
  {
   "property": "C99",
   "status": "proved",
   "theorems": [
    "C99_same_program",
    "C99_reveals_primes",
    "C99_search",
    "C99_new",
    "C99_oblivious_refuted"
   ],
   "note": ""
  },
  {
   "property": "C100",
   "status": "proved",
   "theorems": [
    "C100_exponent",
    "C100_no_short_exponent",
    "C100_generated_exponent",
    "C100_rebuilt_exponent",
    "C100_exponent_refuted",
    "C100_fermat",
    "C100_fermat_close",
    "C100_any_pair",
    "C100_distance_refuted"
   ],
   "note": ""
  },
  {
   "property": "C101",
   "status": "proved",
   "theorems": [
    "C101_crt_exponent",
    "C101_working_exponent"
   ],
   "note": ""
  },
  {
   "property": "C102",
   "status": "proved",
   "theorems": [
    "C102_raw_small",
    "C102_broadcast",
    "C102_padded"
   ],
   "note": ""
  },
  {
   "property": "C103",
   "status": "proved",
   "theorems": [
    "C103_signatures",
    "C103_refused",
    "C103_key_objects",
    "C103_signing_decrypts",
    "C103_signing_reveals",
    "C103_ciphertexts_refuted"
   ],
   "note": ""
  },
  {
   "property": "C104",
   "status": "proved",
   "theorems": [
    "C104_same_results",
    "C104_decrypt_oaep",
    "C104_encrypt_oaep",
    "C104_sign_pss",
    "C104_verify_pss",
    "C104_verify_pkcs1v15",
    "C104_verify_work",
    "C104_decoded_key",
    "C104_exponent_width_refuted"
   ],
   "note": ""
  },
  {
   "property": "C105",
   "status": "proved",
   "theorems": [
    "C105_public",
    "C105_private",
    "C105_pkcs1_public",
    "C105_pkcs1_private",
    "C105_public_reported",
    "C105_private_reported",
    "C105_multi_prime_reported",
    "C105_serialised",
    "C105_serialised_structs",
    "C105_pss_keys",
    "C105_pkcs1v15_keys"
   ],
   "note": ""
  },
  {
   "property": "C106",
   "status": "proved",
   "theorems": [
    "C106_public",
    "C106_private",
    "C106_no_length_error",
    "C106_pkcs1",
    "C106_wrappers"
   ],
   "note": ""
  },
  {
   "property": "C107",
   "status": "proved",
   "theorems": [
    "C107_encrypt",
    "C107_released",
    "C107_blinded",
    "C107_incomplete",
    "C107_few_primes",
    "C107_right_numbers",
    "C107_own_type",
    "C107_two_moduli_refuted"
   ],
   "note": ""
  },
  {
   "property": "C108",
   "status": "proved",
   "theorems": [
    "C108_common_modulus",
    "C108_same_modulus",
    "C108_shared_prime",
    "C108_shared_prime_seen"
   ],
   "note": ""
  },
  {
   "property": "C109",
   "status": "proved",
   "theorems": [
    "C109_private",
    "C109_public",
    "C109_pkcs1_private",
    "C109_pkcs1_public",
    "C109_any_endings",
    "C109_accepted",
    "C109_signing_keys",
    "C109_verifying_keys",
    "C109_round_trip_private",
    "C109_round_trip_public",
    "C109_obtained",
    "C109_injective",
    "C109_generated",
    "C109_generated_signing"
   ],
   "note": ""
  }
 ]
}