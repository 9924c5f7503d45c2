{
 "claims": [
  {
   "property": "C01",
   "status": "proved",
   "theorems": [
    "C01_uri_round_trip",
    "C01_uri_round_trip_bare"
   ],
   "note": ""
  },
  {
   "property": "C02",
   "status": "proved",
   "theorems": [
    "C02_parse_uri_total"
   ],
   "note": ""
  },
  {
   "property": "C03",
   "status": "proved",
   "theorems": [
    "C03_parse_uri_meaning"
   ],
   "note": ""
  },
  {
   "property": "C04",
   "status": "proved",
   "theorems": [
    "C04_build_uri_outcomes",
    "C04_build_uri_fails_iff"
   ],
   "note": ""
  },
  {
   "property": "C05",
   "status": "proved",
   "theorems": [
    "C05_no_parameter_confusion",
    "C05_parameter_injection_refuted"
   ],
   "note": ""
  },
  {
   "property": "C06",
   "status": "proved",
   "theorems": [
    "C06_identity_shape",
    "C06_identity_segments"
   ],
   "note": ""
  },
  {
   "property": "C07",
   "status": "proved",
   "theorems": [
    "C07_identity_binds_key",
    "C07_identity_hash",
    "C07_identity_of_key"
   ],
   "note": ""
  },
  {
   "property": "C08",
   "status": "proved",
   "theorems": [
    "C08_account_ok",
    "C08_account_error"
   ],
   "note": ""
  },
  {
   "property": "C09",
   "status": "proved",
   "theorems": [
    "C09_pem_restores",
    "C09_pem_rejected"
   ],
   "note": ""
  },
  {
   "property": "C10",
   "status": "proved",
   "theorems": [
    "C10_keysecure_restores"
   ],
   "note": ""
  },
  {
   "property": "C11",
   "status": "proved",
   "theorems": [
    "C11_keysecure_opens_iff",
    "C11_keysecure_errors",
    "C11_did_keysecure"
   ],
   "note": ""
  },
  {
   "property": "C12",
   "status": "proved",
   "theorems": [
    "C12_keys_stable",
    "C12_never_replaced"
   ],
   "note": ""
  },
  {
   "property": "C13",
   "status": "proved",
   "theorems": [
    "C13_doc_shape",
    "C13_entry_ids_distinct"
   ],
   "note": ""
  },
  {
   "property": "C14",
   "status": "proved",
   "theorems": [
    "C14_published_keys"
   ],
   "note": ""
  },
  {
   "property": "C15",
   "status": "proved",
   "theorems": [
    "C15_doc_public_only"
   ],
   "note": ""
  },
  {
   "property": "C16",
   "status": "proved",
   "theorems": [
    "C16_private_keys_iff",
    "C16_private_keys_error",
    "C16_private_keys_open"
   ],
   "note": ""
  },
  {
   "property": "C17",
   "status": "proved",
   "theorems": [
    "C17_doc_builder",
    "C17_doc_builder_from"
   ],
   "note": ""
  },
  {
   "property": "C18",
   "status": "proved",
   "theorems": [
    "C18_doc_valid_iff",
    "C18_doc_invalid_iff",
    "C18_identity_doc_valid"
   ],
   "note": ""
  },
  {
   "property": "C19",
   "status": "proved",
   "theorems": [
    "C19_doc_json_text",
    "C19_doc_round_trip",
    "C19_doc_text_inj",
    "C19_identity_doc_wf"
   ],
   "note": ""
  },
  {
   "property": "C20",
   "status": "proved",
   "theorems": [
    "C20_decode_eddsa_iff",
    "C20_decode_ecdh_iff",
    "C20_decode_error"
   ],
   "note": ""
  },
  {
   "property": "C21",
   "status": "proved",
   "theorems": [
    "C21_generated_valid",
    "C21_generated_decode",
    "C21_valid_iff",
    "C21_valid_means_usable_refuted"
   ],
   "note": ""
  },
  {
   "property": "C22",
   "status": "proved",
   "theorems": [
    "C22_vc_to_json",
    "C22_vc_to_jcs"
   ],
   "note": ""
  },
  {
   "property": "C23",
   "status": "proved",
   "theorems": [
    "C23_vp_to_json",
    "C23_vp_to_jcs",
    "C23_credentials_unchecked"
   ],
   "note": ""
  },
  {
   "property": "C24",
   "status": "proved",
   "theorems": [
    "C24_vc_round_trip",
    "C24_vp_round_trip"
   ],
   "note": ""
  },
  {
   "property": "C25",
   "status": "proved",
   "theorems": [
    "C25_vc_builder",
    "C25_vc_builder_from",
    "C25_vp_builder",
    "C25_vp_builder_from",
    "C25_proof_builder",
    "C25_proof_builder_from"
   ],
   "note": ""
  },
  {
   "property": "C26",
   "status": "proved",
   "theorems": [
    "C26_vc_canonical",
    "C26_vp_canonical",
    "C26_proof_canonical",
    "C26_wf_unique"
   ],
   "note": ""
  },
  {
   "property": "C27",
   "status": "proved",
   "theorems": [
    "C27_member_order"
   ],
   "note": ""
  },
  {
   "property": "C28",
   "status": "proved",
   "theorems": [
    "C28_purpose_of_text",
    "C28_purpose_round_trip",
    "C28_purpose_spellings"
   ],
   "note": ""
  },
  {
   "property": "C29",
   "status": "proved",
   "theorems": [
    "C29_vc_add_proof",
    "C29_vp_add_proof",
    "C29_errors"
   ],
   "note": ""
  },
  {
   "property": "C30",
   "status": "proved",
   "theorems": [
    "C30_vc_transport",
    "C30_vp_transport"
   ],
   "note": ""
  },
  {
   "property": "C31",
   "status": "proved",
   "theorems": [
    "C31_vc_resigning_refuted",
    "C31_vp_resigning_refuted"
   ],
   "note": ""
  },
  {
   "property": "C32",
   "status": "proved",
   "theorems": [
    "C32_vc_verify",
    "C32_vp_verify"
   ],
   "note": ""
  },
  {
   "property": "C33",
   "status": "proved",
   "theorems": [
    "C33_vc_tamper_evident",
    "C33_vp_tamper_evident"
   ],
   "note": ""
  },
  {
   "property": "C34",
   "status": "proved",
   "theorems": [
    "C34_vc_result",
    "C34_vp_result"
   ],
   "note": ""
  },
  {
   "property": "C35",
   "status": "proved",
   "theorems": [
    "C35_vc_purpose",
    "C35_vp_purpose",
    "C35_unknown_never",
    "C35_purpose_signed"
   ],
   "note": ""
  },
  {
   "property": "C36",
   "status": "proved",
   "theorems": [
    "C36_expiry_enforced_refuted",
    "C36_vp_expiry_enforced_refuted"
   ],
   "note": ""
  },
  {
   "property": "C37",
   "status": "proved",
   "theorems": [
    "C37_base58_bijection",
    "C37_one_base58_value",
    "C37_vc_reencoded",
    "C37_vp_reencoded"
   ],
   "note": ""
  },
  {
   "property": "C38",
   "status": "proved",
   "theorems": [
    "C38_layout",
    "C38_separated"
   ],
   "note": ""
  },
  {
   "property": "C39",
   "status": "proved",
   "theorems": [
    "C39_exact",
    "C39_rejected",
    "C39_to_json_error"
   ],
   "note": ""
  },
  {
   "property": "C40",
   "status": "proved",
   "theorems": [
    "C40_layout",
    "C40_binds"
   ],
   "note": ""
  },
  {
   "property": "C41",
   "status": "proved",
   "theorems": [
    "C41_try_from",
    "C41_error",
    "C41_round_trip",
    "C41_mime",
    "C41_utf8"
   ],
   "note": ""
  },
  {
   "property": "C42",
   "status": "proved",
   "theorems": [
    "C42_text",
    "C42_round_trip",
    "C42_read"
   ],
   "note": ""
  },
  {
   "property": "C43",
   "status": "proved",
   "theorems": [
    "C43_vc_parse",
    "C43_vp_parse",
    "C43_vc_verify",
    "C43_vp_verify",
    "C43_reformatted"
   ],
   "note": ""
  },
  {
   "property": "C44",
   "status": "proved",
   "theorems": [
    "C44_vc",
    "C44_vp",
    "C44_vc_error",
    "C44_vp_error",
    "C44_vc_trailing",
    "C44_vp_trailing",
    "C44_vc_members",
    "C44_vp_members",
    "C44_subject_last",
    "C44_subject_sorted"
   ],
   "note": ""
  },
  {
   "property": "C45",
   "status": "proved",
   "theorems": [
    "C45_add_proof",
    "C45_verify_admitted",
    "C45_verify_refused"
   ],
   "note": ""
  },
  {
   "property": "C46",
   "status": "proved",
   "theorems": [
    "C46_credentials_verified_refuted"
   ],
   "note": ""
  },
  {
   "property": "C47",
   "status": "proved",
   "theorems": [
    "C47_key_linked_refuted",
    "C47_vp_key_linked_refuted"
   ],
   "note": ""
  },
  {
   "property": "C48",
   "status": "proved",
   "theorems": [
    "C48_assertion",
    "C48_authentication"
   ],
   "note": ""
  },
  {
   "property": "C49",
   "status": "proved",
   "theorems": [
    "C49_vc_relay",
    "C49_vp_relay"
   ],
   "note": ""
  },
  {
   "property": "C50",
   "status": "proved",
   "theorems": [
    "C50_same_proof",
    "C50_type_confusion"
   ],
   "note": ""
  },
  {
   "property": "C51",
   "status": "proved",
   "theorems": [
    "C51_doc",
    "C51_params",
    "C51_user_connection"
   ],
   "note": ""
  },
  {
   "property": "C52",
   "status": "proved",
   "theorems": [
    "C52_text",
    "C52_round_trip",
    "C52_injective",
    "C52_read_wf"
   ],
   "note": ""
  },
  {
   "property": "C53",
   "status": "proved",
   "theorems": [
    "C53_text",
    "C53_round_trip"
   ],
   "note": ""
  },
  {
   "property": "C54",
   "status": "proved",
   "theorems": [
    "C54_parsed_clean",
    "C54_rebuilt"
   ],
   "note": ""
  },
  {
   "property": "C55",
   "status": "proved",
   "theorems": [
    "C55_uri_hashlink"
   ],
   "note": ""
  },
  {
   "property": "C56",
   "status": "proved",
   "theorems": [
    "C56_outcomes",
    "C56_through_uri"
   ],
   "note": ""
  },
  {
   "property": "C57",
   "status": "proved",
   "theorems": [
    "C57_document_bound_to_did_refuted"
   ],
   "note": ""
  },
  {
   "property": "C58",
   "status": "proved",
   "theorems": [
    "C58_embedded"
   ],
   "note": ""
  },
  {
   "property": "C59",
   "status": "proved",
   "theorems": [
    "C59_default"
   ],
   "note": ""
  },
  {
   "property": "C60",
   "status": "proved",
   "theorems": [
    "C60_restored_signs"
   ],
   "note": ""
  },
  {
   "property": "C61",
   "status": "proved",
   "theorems": [
    "C61_vc_signing_errors",
    "C61_vp_signing_errors"
   ],
   "note": ""
  },
  {
   "property": "C62",
   "status": "proved",
   "theorems": [
    "C62_vc_verification_errors",
    "C62_vp_verification_errors"
   ],
   "note": ""
  },
  {
   "property": "C63",
   "status": "proved",
   "theorems": [
    "C63_opening_errors",
    "C63_did_opening_errors"
   ],
   "note": ""
  },
  {
   "property": "C64",
   "status": "proved",
   "theorems": [
    "C64_pair_key_text",
    "C64_pair_agreement_text",
    "C64_entry_errors",
    "C64_pair_entry_agree"
   ],
   "note": ""
  },
  {
   "property": "C65",
   "status": "proved",
   "theorems": [
    "C65_pem_errors",
    "C65_read_pem_errors",
    "C65_decrypt_errors"
   ],
   "note": ""
  },
  {
   "property": "C66",
   "status": "proved",
   "theorems": [
    "C66_hashlink_errors"
   ],
   "note": ""
  },
  {
   "property": "C67",
   "status": "proved",
   "theorems": [
    "C67_base58_number",
    "C67_base58_unique",
    "C67_hex_number",
    "C67_hex_unique"
   ],
   "note": ""
  },
  {
   "property": "C68",
   "status": "proved",
   "theorems": [
    "C68_did_length",
    "C68_hashlink_length"
   ],
   "note": ""
  },
  {
   "property": "C69",
   "status": "proved",
   "theorems": [
    "C69_vc_reads",
    "C69_vp_reads",
    "C69_vc_lossless",
    "C69_vp_lossless",
    "C69_vc_same",
    "C69_vp_same",
    "C69_vc_other",
    "C69_vp_other",
    "C69_any_numbers_refuted"
   ],
   "note": ""
  },
  {
   "property": "C70",
   "status": "proved",
   "theorems": [
    "C70_vc_reads",
    "C70_vp_reads",
    "C70_vc_fixed",
    "C70_vp_fixed",
    "C70_vc_transport",
    "C70_vp_transport"
   ],
   "note": ""
  },
  {
   "property": "C71",
   "status": "proved",
   "theorems": [
    "C71_members",
    "C71_proof",
    "C71_vc",
    "C71_vp",
    "C71_order"
   ],
   "note": ""
  },
  {
   "property": "C72",
   "status": "proved",
   "theorems": [
    "C72_vc",
    "C72_vp"
   ],
   "note": ""
  },
  {
   "property": "C73",
   "status": "proved",
   "theorems": [
    "C73_sent",
    "C73_bound"
   ],
   "note": ""
  },
  {
   "property": "C74",
   "status": "proved",
   "theorems": [
    "C74_add",
    "C74_verify",
    "C74_round",
    "C74_contract_needed",
    "C74_tamper",
    "C74_only_text"
   ],
   "note": ""
  },
  {
   "property": "C75",
   "status": "proved",
   "theorems": [
    "C75_vc",
    "C75_vp",
    "C75_honest"
   ],
   "note": ""
  },
  {
   "property": "C76",
   "status": "proved",
   "theorems": [
    "C76_default",
    "C76_new",
    "C76_unset",
    "C76_default_fields"
   ],
   "note": ""
  },
  {
   "property": "C77",
   "status": "proved",
   "theorems": [
    "C77_hex",
    "C77_multibase"
   ],
   "note": ""
  },
  {
   "property": "C78",
   "status": "proved",
   "theorems": [
    "C78_did",
    "C78_account",
    "C78_proof",
    "C78_keysecure"
   ],
   "note": ""
  },
  {
   "property": "C79",
   "status": "proved",
   "theorems": [
    "C79_varint",
    "C79_multihash"
   ],
   "note": ""
  },
  {
   "property": "C80",
   "status": "proved",
   "theorems": [
    "C80_create",
    "C80_create_errors",
    "C80_verify",
    "C80_verify_errors",
    "C80_layer",
    "C80_round"
   ],
   "note": ""
  },
  {
   "property": "C81",
   "status": "proved",
   "theorems": [
    "C81_account",
    "C81_passwords",
    "C81_slots",
    "C81_both_openers"
   ],
   "note": ""
  },
  {
   "property": "C82",
   "status": "proved",
   "theorems": [
    "C82_vc",
    "C82_vp"
   ],
   "note": ""
  },
  {
   "property": "C83",
   "status": "proved",
   "theorems": [
    "C83_string",
    "C83_integers",
    "C83_value",
    "C83_vc",
    "C83_vp",
    "C83_any_text_refuted"
   ],
   "note": ""
  },
  {
   "property": "C84",
   "status": "proved",
   "theorems": [
    "C84_nearest",
    "C84_refused",
    "C84_laws",
    "C84_read_back",
    "C84_vc_transport",
    "C84_vp_transport",
    "C84_vc_canonical",
    "C84_vp_canonical",
    "C84_vc_relay",
    "C84_vp_relay"
   ],
   "note": ""
  },
  {
   "property": "C85",
   "status": "proved",
   "theorems": [
    "C85_numbers",
    "C85_vc",
    "C85_vp",
    "C85_equal_numbers_refuted",
    "C85_accepted_is_signed_refuted"
   ],
   "note": ""
  },
  {
   "property": "C86",
   "status": "proved",
   "theorems": [
    "C86_plain_read",
    "C86_read",
    "C86_vc_transport",
    "C86_vp_transport",
    "C86_vc_accepted",
    "C86_vp_accepted",
    "C86_read_back_refuted",
    "C86_vc_lost",
    "C86_transport_refuted"
   ],
   "note": ""
  },
  {
   "property": "C87",
   "status": "proved",
   "theorems": [
    "C87_accepted_texts",
    "C87_calendar",
    "C87_rfc3339",
    "C87_validated",
    "C87_signed",
    "C87_verified",
    "C87_only_rfc3339_refuted"
   ],
   "note": ""
  },
  {
   "property": "C88",
   "status": "proved",
   "theorems": [
    "C88_decoded_texts",
    "C88_one_meaning",
    "C88_one_text",
    "C88_one_text_refuted",
    "C88_vc_any_base",
    "C88_vp_any_base",
    "C88_key_any_base"
   ],
   "note": ""
  },
  {
   "property": "C89",
   "status": "proved",
   "theorems": [
    "C89_sha256_calls",
    "C89_sha384_calls",
    "C89_sha256_ends",
    "C89_sha384_ends",
    "C89_blake3_ends",
    "C89_sha256",
    "C89_sha384",
    "C89_blake3",
    "C89_hashlink",
    "C89_identity",
    "C89_message",
    "C89_vc",
    "C89_vp"
   ],
   "note": ""
  },
  {
   "property": "C90",
   "status": "proved",
   "theorems": [
    "C90_canonical",
    "C90_written",
    "C90_same_digits",
    "C90_only_value",
    "C90_choice",
    "C90_words",
    "C90_assumption"
   ],
   "note": ""
  },
  {
   "property": "C91",
   "status": "proved",
   "theorems": [
    "C91_signed_accepted",
    "C91_signed_iff",
    "C91_verify_iff",
    "C91_sizes",
    "C91_one_completion",
    "C91_public_readable",
    "C91_law",
    "C91_vc",
    "C91_vp"
   ],
   "note": ""
  },
  {
   "property": "C92",
   "status": "proved",
   "theorems": [
    "C92_one_message_refuted",
    "C92_vc_signed_refuted",
    "C92_vp_signed_refuted"
   ],
   "note": ""
  },
  {
   "property": "C93",
   "status": "proved",
   "theorems": [
    "C93_block",
    "C93_extended",
    "C93_open_iff",
    "C93_one_sealing",
    "C93_keysecure",
    "C93_form",
    "C93_few_keys",
    "C93_tampered",
    "C93_retagged"
   ],
   "note": ""
  },
  {
   "property": "C94",
   "status": "proved",
   "theorems": [
    "C94_sha256",
    "C94_sha384",
    "C94_sha512",
    "C94_message",
    "C94_created",
    "C94_identity"
   ],
   "note": ""
  },
  {
   "property": "C95",
   "status": "proved",
   "theorems": [
    "C95_blake3",
    "C95_hashlink",
    "C95_verified",
    "C95_identity"
   ],
   "note": ""
  },
  {
   "property": "C96",
   "status": "proved",
   "theorems": [
    "C96_backup",
    "C96_restore",
    "C96_damage",
    "C96_length",
    "C96_sealed"
   ],
   "note": ""
  },
  {
   "property": "C97",
   "status": "proved",
   "theorems": [
    "C97_vc",
    "C97_vp",
    "C97_laws",
    "C97_life"
   ],
   "note": ""
  },
  {
   "property": "C98",
   "status": "proved",
   "theorems": [
    "C98_read",
    "C98_through_uri",
    "C98_injection_refuted",
    "C98_cut_refuted",
    "C98_one_text_refuted"
   ],
   "note": ""
  },
  {
   "property": "C99",
   "status": "proved",
   "theorems": [
    "C99_vp_refuted",
    "C99_vc_refuted",
    "C99_errors"
   ],
   "note": ""
  },
  {
   "property": "C100",
   "status": "proved",
   "theorems": [
    "C100_public",
    "C100_common",
    "C100_agreement",
    "C100_weak_refuted",
    "C100_twin_refuted"
   ],
   "note": ""
  },
  {
   "property": "C101",
   "status": "proved",
   "theorems": [
    "C101_tag",
    "C101_memory",
    "C101_apart",
    "C101_keysecure",
    "C101_costs",
    "C101_length",
    "C101_output_len_refuted"
   ],
   "note": ""
  },
  {
   "property": "C102",
   "status": "proved",
   "theorems": [
    "C102_blake2b",
    "C102_long",
    "C102_compress",
    "C102_argon2id",
    "C102_key"
   ],
   "note": ""
  },
  {
   "property": "C103",
   "status": "proved",
   "theorems": [
    "C103_read",
    "C103_others",
    "C103_some_text",
    "C103_through_uri",
    "C103_one_text",
    "C103_one_text_refuted",
    "C103_digest_refuted"
   ],
   "note": ""
  },
  {
   "property": "C104",
   "status": "proved",
   "theorems": [
    "C104_vc",
    "C104_vp",
    "C104_vc_refuted",
    "C104_vp_refuted",
    "C104_vc_raw",
    "C104_vp_raw"
   ],
   "note": ""
  },
  {
   "property": "C105",
   "status": "proved",
   "theorems": [
    "C105_methods_refuted",
    "C105_signs_refuted",
    "C105_identities_refuted",
    "C105_kinds_refuted"
   ],
   "note": ""
  },
  {
   "property": "C106",
   "status": "proved",
   "theorems": [
    "C106_same_document",
    "C106_restored_refuted"
   ],
   "note": ""
  }
 ]
}