{
 "claims": [
  {
   "property": "C01",
   "status": "proved",
   "theorems": [
    "C01_token_request_accepted_iff"
   ],
   "note": ""
  },
  {
   "property": "C02",
   "status": "proved",
   "theorems": [
    "C02_token_request_rejected_iff",
    "C02_token_evaluation_never_panics"
   ],
   "note": ""
  },
  {
   "property": "C03",
   "status": "proved",
   "theorems": [
    "C03_authorization_code_never_accepted"
   ],
   "note": ""
  },
  {
   "property": "C04",
   "status": "partial",
   "theorems": [
    "C04_eight_digit_bound_refuted",
    "C04_up_to_nine_digits_pass"
   ],
   "note": "REFUTED: a nine-digit PIN passes validation and can be redeemed; the exact boundary (ten digits) is C05."
  },
  {
   "property": "C05",
   "status": "proved",
   "theorems": [
    "C05_pin_length_boundary",
    "C05_reported_length_is_one_too_small",
    "C05_digit_count_is_a_function"
   ],
   "note": ""
  },
  {
   "property": "C06",
   "status": "proved",
   "theorems": [
    "C06_authorized_grant_is_irrelevant"
   ],
   "note": ""
  },
  {
   "property": "C07",
   "status": "proved",
   "theorems": [
    "C07_token_success_response"
   ],
   "note": ""
  },
  {
   "property": "C08",
   "status": "partial",
   "theorems": [
    "C08_created_response_validates_refuted",
    "C08_response_validates_iff",
    "C08_response_rejected_iff"
   ],
   "note": "REFUTED: a nonce lifetime without a nonce is accepted by create and rejected by validate; exact condition proved."
  },
  {
   "property": "C09",
   "status": "proved",
   "theorems": [
    "C09_token_error_codes_bijective"
   ],
   "note": ""
  },
  {
   "property": "C10",
   "status": "proved",
   "theorems": [
    "C10_credential_error_codes_bijective"
   ],
   "note": ""
  },
  {
   "property": "C11",
   "status": "partial",
   "theorems": [
    "C11_oauth_error_string_refuted",
    "C11_token_error_member",
    "C11_credential_error_member",
    "C11_token_error_any_details",
    "C11_credential_error_any_details"
   ],
   "note": "REFUTED: the `error` member is the Rust variant name (e.g. InvalidRequest), which TryFrom<String> rejects, for every code of both enums; the exact text is proved."
  },
  {
   "property": "C12",
   "status": "partial",
   "theorems": [
    "C12_always_serializes_refuted",
    "C12_standard_members_unique_refuted",
    "C12_token_error_serializes_iff",
    "C12_credential_error_serializes_iff",
    "C12_standard_members_unique_iff"
   ],
   "note": "REFUTED twice: details that are not an object do not serialize, and an object can repeat error/error_description/error_uri; both exact conditions are proved."
  },
  {
   "property": "C13",
   "status": "proved",
   "theorems": [
    "C13_create_offer_succeeds_iff"
   ],
   "note": ""
  },
  {
   "property": "C14",
   "status": "proved",
   "theorems": [
    "C14_created_offer_content"
   ],
   "note": ""
  },
  {
   "property": "C15",
   "status": "proved",
   "theorems": [
    "C15_offer_url_shape"
   ],
   "note": ""
  },
  {
   "property": "C16",
   "status": "proved",
   "theorems": [
    "C16_offer_recovered_from_url"
   ],
   "note": ""
  },
  {
   "property": "C17",
   "status": "proved",
   "theorems": [
    "C17_any_numbers",
    "C17_offer_payload_injective"
   ],
   "note": ""
  },
  {
   "property": "C18",
   "status": "proved",
   "theorems": [
    "C18_metadata_validates_iff",
    "C18_only_ids_matter"
   ],
   "note": ""
  },
  {
   "property": "C19",
   "status": "proved",
   "theorems": [
    "C19_resolve_ok",
    "C19_resolve_err",
    "C19_validated_metadata_resolves_uniquely",
    "C19_order_is_irrelevant"
   ],
   "note": ""
  },
  {
   "property": "C20",
   "status": "proved",
   "theorems": [
    "C20_resolve_all"
   ],
   "note": ""
  },
  {
   "property": "C21",
   "status": "proved",
   "theorems": [
    "C21_create_offer_fails_iff",
    "C21_create_offer_never_panics"
   ],
   "note": ""
  },
  {
   "property": "C22",
   "status": "partial",
   "theorems": [
    "C22_offer_in_query_refuted",
    "C22_offer_in_query_iff"
   ],
   "note": "REFUTED: without an endpoint the URL has no `?`; with an endpoint the claim holds exactly if the endpoint has no `?` (proved)."
  },
  {
   "property": "C23",
   "status": "proved",
   "theorems": [
    "C23_percent_encoding",
    "C23_encoded_form"
   ],
   "note": ""
  },
  {
   "property": "C24",
   "status": "proved",
   "theorems": [
    "C24_compact_token_round_trip",
    "C24_header_document",
    "C24_claims_document",
    "C24_claims_read_iff"
   ],
   "note": ""
  },
  {
   "property": "C25",
   "status": "proved",
   "theorems": [
    "C25_rejected_tokens",
    "C25_accepted_tokens",
    "C25_no_dot",
    "C25_never_panics"
   ],
   "note": ""
  },
  {
   "property": "C26",
   "status": "partial",
   "theorems": [
    "C26_surplus_segments_ignored",
    "C26_at_most_three_segments_refuted"
   ],
   "note": "REFUTED: everything after a third dot is ignored (proved for all tokens)."
  },
  {
   "property": "C27",
   "status": "partial",
   "theorems": [
    "C27_string_never_parses",
    "C27_string_parses_back_refuted",
    "C27_string_text"
   ],
   "note": "REFUTED for every token: the text is raw JSON joined by dots and ProofJwt::from_str always rejects it; exact text proved."
  },
  {
   "property": "C28",
   "status": "proved",
   "theorems": [
    "C28_codecs_exact"
   ],
   "note": ""
  },
  {
   "property": "C29",
   "status": "partial",
   "theorems": [
    "C29_key_members_exclusive_refuted",
    "C29_later_keys_ignored",
    "C29_first_key_used"
   ],
   "note": "REFUTED: the first of kid, jwk, x5c in document order is used and later ones are ignored (proved for all headers)."
  },
  {
   "property": "C30",
   "status": "proved",
   "theorems": [
    "C30_typ_exact"
   ],
   "note": ""
  },
  {
   "property": "C31",
   "status": "proved",
   "theorems": [
    "C31_window_exact"
   ],
   "note": ""
  },
  {
   "property": "C32",
   "status": "partial",
   "theorems": [
    "C32_exp_excluded_refuted",
    "C32_accepted_at_exp"
   ],
   "note": "REFUTED: a token is accepted at its expiration time (proved for every exp); the exact window is C31."
  },
  {
   "property": "C33",
   "status": "partial",
   "theorems": [
    "C33_numeric_dates_rejected",
    "C33_numeric_dates_accepted_refuted"
   ],
   "note": "REFUTED: every claims object whose iat is not a JSON string is rejected (proved for all tokens)."
  },
  {
   "property": "C34",
   "status": "proved",
   "theorems": [
    "C34_pre_evaluation_answers",
    "C34_pre_evaluation_errors",
    "C34_pre_evaluation_never_panics"
   ],
   "note": ""
  },
  {
   "property": "C35",
   "status": "proved",
   "theorems": [
    "C35_same_subject"
   ],
   "note": ""
  },
  {
   "property": "C36",
   "status": "proved",
   "theorems": [
    "C36_success_implies_checks"
   ],
   "note": ""
  },
  {
   "property": "C37",
   "status": "proved",
   "theorems": [
    "C37_success_exactly"
   ],
   "note": ""
  },
  {
   "property": "C38",
   "status": "proved",
   "theorems": [
    "C38_no_expected_nonce_no_success",
    "C38_no_expected_nonce_error"
   ],
   "note": ""
  },
  {
   "property": "C39",
   "status": "proved",
   "theorems": [
    "C39_expiry_boundary",
    "C39_expired_stays_expired",
    "C39_success_at_earlier_times"
   ],
   "note": ""
  },
  {
   "property": "C40",
   "status": "proved",
   "theorems": [
    "C40_client_id_is_iss",
    "C40_iss_absent_in_other_flows",
    "C40_iss_free_when_pre_authorized"
   ],
   "note": ""
  },
  {
   "property": "C41",
   "status": "proved",
   "theorems": [
    "C41_first_failing_check"
   ],
   "note": ""
  },
  {
   "property": "C42",
   "status": "partial",
   "theorems": [
    "C42_never_panics_refuted",
    "C42_resolver_refuted",
    "C42_panics_exactly"
   ],
   "note": "REFUTED twice: a nonce whose expiry is beyond the clock's range panics, and so does a document in which the kid selects something other than a verification method; the exact panic condition is proved."
  },
  {
   "property": "C43",
   "status": "proved",
   "theorems": [
    "C43_no_request_panics",
    "C43_other_operations_never_panic"
   ],
   "note": ""
  },
  {
   "property": "C44",
   "status": "partial",
   "theorems": [
    "C44_forbidden_algorithms_refuted",
    "C44_algorithm_not_examined"
   ],
   "note": "REFUTED: alg none is accepted; proved that alg is never examined (same verdict for every alg)."
  },
  {
   "property": "C45",
   "status": "partial",
   "theorems": [
    "C45_validity_window_refuted",
    "C45_window_not_examined"
   ],
   "note": "REFUTED: an expired proof is accepted; proved that nbf and exp are never examined."
  },
  {
   "property": "C46",
   "status": "partial",
   "theorems": [
    "C46_supported_credentials_refuted",
    "C46_requested_credential_not_examined",
    "C46_offered_credentials_not_examined"
   ],
   "note": "REFUTED: an unsupported credential is accepted; proved that the requested credential, the supported credentials and the offered credentials are never examined."
  },
  {
   "property": "C47",
   "status": "partial",
   "theorems": [
    "C47_proof_type_refuted",
    "C47_proof_type_not_examined"
   ],
   "note": "REFUTED: proof_type cwt is accepted by evaluation; proved that evaluation never looks at proof_type (pre-evaluation does, C48)."
  },
  {
   "property": "C48",
   "status": "proved",
   "theorems": [
    "C48_other_proof_types_rejected",
    "C48_jwt_in_any_casing"
   ],
   "note": ""
  },
  {
   "property": "C49",
   "status": "partial",
   "theorems": [
    "C49_message_never_signing_input",
    "C49_message_is_signing_input_refuted"
   ],
   "note": "REFUTED for every request: the message is never the signing input (proved); C51 gives the exact message."
  },
  {
   "property": "C50",
   "status": "partial",
   "theorems": [
    "C50_signature_is_third_segment_refuted",
    "C50_third_segment_iff_no_dots"
   ],
   "note": "REFUTED: dots in the header or claims move the signature; the claim holds exactly if both are without dots (proved)."
  },
  {
   "property": "C51",
   "status": "proved",
   "theorems": [
    "C51_message_and_signature",
    "C51_determined"
   ],
   "note": ""
  },
  {
   "property": "C52",
   "status": "partial",
   "theorems": [
    "C52_unsigned_rejected_refuted",
    "C52_unsigned_rejected_without_dots_partial",
    "C52_unsigned_like_signed_with_dots"
   ],
   "note": "REFUTED: a dot in the header or claims (e.g. in aud) stands in for the signature segment; tokens without such dots are rejected (proved, partial), and the exact condition is proved."
  },
  {
   "property": "C53",
   "status": "proved",
   "theorems": [
    "C53_key_of_document",
    "C53_key_depends_on_kid_only",
    "C53_other_keys_rejected",
    "C53_keys_covered"
   ],
   "note": ""
  },
  {
   "property": "C54",
   "status": "proved",
   "theorems": [
    "C54_only_kid"
   ],
   "note": ""
  },
  {
   "property": "C55",
   "status": "proved",
   "theorems": [
    "C55_success_response_iff",
    "C55_success_response_errors",
    "C55_never_both"
   ],
   "note": ""
  },
  {
   "property": "C56",
   "status": "proved",
   "theorems": [
    "C56_credential_recovered"
   ],
   "note": ""
  },
  {
   "property": "C57",
   "status": "partial",
   "theorems": [
    "C57_format_of_credential_refuted",
    "C57_holds_iff_formats_agree"
   ],
   "note": "REFUTED: the member names the format of the request, which need not be that of the credential; the claim holds exactly if they agree (proved)."
  },
  {
   "property": "C58",
   "status": "partial",
   "theorems": [
    "C58_credential_member_exact",
    "C58_credential_member_refuted"
   ],
   "note": "REFUTED: the member is the object {Encoded: text} or {CredentialFormatProfile: credential} (exact form proved for all responses)."
  },
  {
   "property": "C59",
   "status": "proved",
   "theorems": [
    "C59_success_response_round_trip"
   ],
   "note": ""
  },
  {
   "property": "C60",
   "status": "proved",
   "theorems": [
    "C60_code_identifies_variant",
    "C60_name_identifies_variant",
    "C60_code_in_range",
    "C60_published_table"
   ],
   "note": ""
  },
  {
   "property": "C61",
   "status": "proved",
   "theorems": [
    "C61_validation_information",
    "C61_jwt_information",
    "C61_issuer_information",
    "C61_token_information",
    "C61_wrapping_keeps_information",
    "C61_description",
    "C61_every_error_described",
    "C61_every_error_reportable",
    "C61_display",
    "C61_any_error",
    "C61_any_display"
   ],
   "note": ""
  },
  {
   "property": "C62",
   "status": "partial",
   "theorems": [
    "C62_description_is_message_refuted",
    "C62_message_is_additional_information"
   ],
   "note": "REFUTED: the description is a fixed text whatever the message (so the assertion of the repository's own test does not follow); the message is proved to be in additional_information."
  },
  {
   "property": "C63",
   "status": "proved",
   "theorems": [
    "C63_return_object_of_ok",
    "C63_return_object_of_err",
    "C63_json_of_ok",
    "C63_json_of_err",
    "C63_any_return_object"
   ],
   "note": ""
  },
  {
   "property": "C64",
   "status": "proved",
   "theorems": [
    "C64_warnings_accumulate",
    "C64_json_of_ok",
    "C64_json_of_err"
   ],
   "note": ""
  },
  {
   "property": "C65",
   "status": "proved",
   "theorems": [
    "C65_created_offers_redeemable"
   ],
   "note": ""
  },
  {
   "property": "C66",
   "status": "proved",
   "theorems": [
    "C66_any_numbers",
    "C66_texts_apart",
    "C66_json_round_trip",
    "C66_text_is_json",
    "C66_text_is_compact",
    "C66_grammar_unambiguous"
   ],
   "note": ""
  },
  {
   "property": "C67",
   "status": "partial",
   "theorems": [
    "C67_token_request_round_trip",
    "C67_flat_wire_form_refuted",
    "C67_actual_wire_form"
   ],
   "note": "Round trip proved. REFUTED: the wire form nests grant_type inside a grant_type object, for every request."
  },
  {
   "property": "C68",
   "status": "proved",
   "theorems": [
    "C68_payloads_decode_to_equal_offers",
    "C68_metadata_decisions",
    "C68_token_request_decision",
    "C68_request_decisions"
   ],
   "note": ""
  },
  {
   "property": "C69",
   "status": "partial",
   "theorems": [
    "C69_metadata_read_back",
    "C69_name_clash_unreadable",
    "C69_unknown_members_kept",
    "C69_metadata_round_trip_refuted"
   ],
   "note": "REFUTED: metadata without additional fields is read back with an empty map; the exact result is proved, as is that a clashing name makes the text unreadable and that reading keeps unknown members."
  },
  {
   "property": "C70",
   "status": "partial",
   "theorems": [
    "C70_misspelt_member_read",
    "C70_misspelt_member_written",
    "C70_binding_methods_read_refuted"
   ],
   "note": "REFUTED: the member is spelt cryptographic_binding_mehtods_supported, both when reading and when writing (proved for all documents)."
  },
  {
   "property": "C71",
   "status": "proved",
   "theorems": [
    "C71_request_round_trip",
    "C71_proof_read",
    "C71_default_type"
   ],
   "note": ""
  },
  {
   "property": "C72",
   "status": "partial",
   "theorems": [
    "C72_token_request_read_iff",
    "C72_text_pin_rejected",
    "C72_specified_code_name_rejected",
    "C72_text_pin_read_refuted"
   ],
   "note": "Exact condition proved (for arbitrary documents: C81_token_request). REFUTED: a PIN given as text is always rejected, and so is the member name pre-authorized_code."
  },
  {
   "property": "C73",
   "status": "proved",
   "theorems": [
    "C73_token_options",
    "C73_c_nonce",
    "C73_evaluation_options",
    "C73_parsed_proof"
   ],
   "note": ""
  },
  {
   "property": "C74",
   "status": "proved",
   "theorems": [
    "C74_json_reader_iff",
    "C74_json_unambiguous",
    "C74_spelling_irrelevant",
    "C74_only_json_accepted"
   ],
   "note": ""
  },
  {
   "property": "C75",
   "status": "proved",
   "theorems": [
    "C75_unknown_members_ignored",
    "C75_nested_members_ignored"
   ],
   "note": ""
  },
  {
   "property": "C76",
   "status": "partial",
   "theorems": [
    "C76_claims_are_an_object_refuted",
    "C76_object_or_seven_values",
    "C76_header_is_an_object"
   ],
   "note": "REFUTED: an array of the seven claim values is read as the claims. Proved: an object or exactly seven values in order, nothing else; the header is always an object."
  },
  {
   "property": "C77",
   "status": "proved",
   "theorems": [
    "C77_honest_run"
   ],
   "note": ""
  },
  {
   "property": "C78",
   "status": "proved",
   "theorems": [
    "C78_accepted_proofs_are_current"
   ],
   "note": ""
  },
  {
   "property": "C79",
   "status": "proved",
   "theorems": [
    "C79_no_replay_after_a_new_nonce"
   ],
   "note": ""
  },
  {
   "property": "C80",
   "status": "partial",
   "theorems": [
    "C80_proof_used_once_refuted",
    "C80_code_used_once_refuted",
    "C80_accepted_again_until_expiry"
   ],
   "note": "REFUTED for proofs and for codes: a history in which both are accepted twice. Proved: the repeated request is accepted until the nonce expires or a new one is issued, whatever happens in between (and C79: not after a new nonce)."
  },
  {
   "property": "C81",
   "status": "proved",
   "theorems": [
    "C81_offer",
    "C81_token_request",
    "C81_token_response",
    "C81_credential",
    "C81_credential_request",
    "C81_credential_response",
    "C81_metadata",
    "C81_token_options",
    "C81_nonce",
    "C81_evaluation_options",
    "C81_parsed_proof",
    "C81_header",
    "C81_claims"
   ],
   "note": ""
  },
  {
   "property": "C82",
   "status": "proved",
   "theorems": [
    "C82_offer_any_numbers",
    "C82_credential_any_numbers",
    "C82_credential_request_any_numbers",
    "C82_credential_response_any_numbers",
    "C82_metadata_any_numbers",
    "C82_texts_apart",
    "C82_offer",
    "C82_token_request",
    "C82_token_response",
    "C82_credential",
    "C82_credential_request",
    "C82_credential_response",
    "C82_metadata",
    "C82_token_options",
    "C82_nonce",
    "C82_evaluation_options",
    "C82_parsed_proof",
    "C82_header",
    "C82_claims"
   ],
   "note": ""
  },
  {
   "property": "C83",
   "status": "proved",
   "theorems": [
    "C83_calendar",
    "C83_date_has_one_day",
    "C83_representable",
    "C83_range",
    "C83_written",
    "C83_displayed",
    "C83_read",
    "C83_one_instant",
    "C83_read_back",
    "C83_claims_written",
    "C83_claims_read"
   ],
   "note": ""
  },
  {
   "property": "C84",
   "status": "partial",
   "theorems": [
    "C84_message_determines_token_refuted",
    "C84_message_covers_iff",
    "C84_covering_message_determines_token",
    "C84_signed_message_determines_token_partial",
    "C84_claims_returned_as_signature"
   ],
   "note": "REFUTED for unsigned tokens (two accepted tokens, different exp, same message). Proved: exactly when the message contains both documents; then it determines them, against signed and unsigned tokens; in particular for every signed token."
  },
  {
   "property": "C85",
   "status": "partial",
   "theorems": [
    "C85_outcome_determined_by_known_members_partial",
    "C85_message_determines_claims_document_refuted"
   ],
   "note": "REFUTED: tokens that differ in an unknown claim have the same message. Proved: the outcome is a function of what is read from the token."
  },
  {
   "property": "C86",
   "status": "proved",
   "theorems": [
    "C86_wrong_pin",
    "C86_wrong_pin_hides_code",
    "C86_wrong_code",
    "C86_no_pin_supplied",
    "C86_missing_pin_confirms_code"
   ],
   "note": ""
  },
  {
   "property": "C87",
   "status": "partial",
   "theorems": [
    "C87_nonce_obtained",
    "C87_error_discloses",
    "C87_nonce_hidden_refuted",
    "C87_only_mismatch_discloses_nonce_partial",
    "C87_only_mismatch_discloses_client_id_partial"
   ],
   "note": "REFUTED: the rejection contains the expected nonce; proved that every well-formed token with another nonce obtains it, and that no other answer depends on the nonce or the client id."
  },
  {
   "property": "C88",
   "status": "proved",
   "theorems": [
    "C88_offer_of_ids",
    "C88_offer_of_profiles",
    "C88_slices_and_texts"
   ],
   "note": ""
  },
  {
   "property": "C89",
   "status": "partial",
   "theorems": [
    "C89_standard_codes_unread",
    "C89_standard_codes_read_refuted",
    "C89_token_code_texts",
    "C89_credential_code_texts",
    "C89_codes_round_trip"
   ],
   "note": "REFUTED for every code of both standards: only the Rust names are read; proved exactly which texts are."
  },
  {
   "property": "C90",
   "status": "partial",
   "theorems": [
    "C90_evidence_never_verifies",
    "C90_decoded_signature_for_other_message",
    "C90_signed_token_verifies_refuted"
   ],
   "note": "REFUTED: for a signature algorithm of fixed length the returned signature verifies for no key and message; proved for every accepted signed token, and what happens if the caller decodes it."
  },
  {
   "property": "C91",
   "status": "partial",
   "theorems": [
    "C91_metadata_kept_refuted",
    "C91_texts",
    "C91_all_metadata_equal"
   ],
   "note": "REFUTED: the type has no fields; proved exactly which texts are read, all as one value."
  },
  {
   "property": "C92",
   "status": "proved",
   "theorems": [
    "C92_any_numbers",
    "C92_determined_any_numbers",
    "C92_result_document",
    "C92_document_determines_result",
    "C92_pre_evaluation_document"
   ],
   "note": ""
  },
  {
   "property": "C93",
   "status": "proved",
   "theorems": [
    "C93_credential_evaluation_depends",
    "C93_token_evaluation_depends"
   ],
   "note": ""
  },
  {
   "property": "C94",
   "status": "partial",
   "theorems": [
    "C94_one_value",
    "C94_integers",
    "C94_short",
    "C94_stable",
    "C94_close",
    "C94_accepted",
    "C94_too_large",
    "C94_readable_again",
    "C94_nearest",
    "C94_recovered",
    "C94_exponent_in_32_bits",
    "C94_refuted"
   ],
   "note": "REFUTED: 4000000000000010.0 is written as 4000000000000009.5. Proved: exact for 64-bit integers and for 15 digits with a power of ten of at most 22, otherwise within 10^-15; which numbers are accepted."
  },
  {
   "property": "C95",
   "status": "proved",
   "theorems": [
    "C95_token_request",
    "C95_credential_request",
    "C95_key_form",
    "C95_header",
    "C95_unchecked"
   ],
   "note": ""
  },
  {
   "property": "C96",
   "status": "partial",
   "theorems": [
    "C96_offers",
    "C96_requests",
    "C96_responses",
    "C96_credentials",
    "C96_metadata",
    "C96_created_offers_readable_refuted"
   ],
   "note": "REFUTED: an offer with a context of 123 levels is created and cannot be read; the exact limit of every document type is proved."
  },
  {
   "property": "C97",
   "status": "proved",
   "theorems": [
    "C97_nonce",
    "C97_iss",
    "C97_aud",
    "C97_did",
    "C97_key",
    "C97_message",
    "C97_signature",
    "C97_format"
   ],
   "note": ""
  },
  {
   "property": "C98",
   "status": "proved",
   "theorems": [
    "C98_one_token_one_issuer"
   ],
   "note": ""
  },
  {
   "property": "C99",
   "status": "proved",
   "theorems": [
    "C99_wallet_resolves_what_was_offered"
   ],
   "note": ""
  },
  {
   "property": "C100",
   "status": "proved",
   "theorems": [
    "C100_sessions_independent",
    "C100_accepted_in_one_session"
   ],
   "note": ""
  },
  {
   "property": "C101",
   "status": "proved",
   "theorems": [
    "C101_restart_always_possible",
    "C101_restarts_invisible",
    "C101_accepted_nonce_was_issued"
   ],
   "note": ""
  },
  {
   "property": "C102",
   "status": "proved",
   "theorems": [
    "C102_proofs_accepted_once",
    "C102_codes_redeemed_once",
    "C102_proofs_once_per_loss",
    "C102_codes_once_per_loss"
   ],
   "note": ""
  },
  {
   "property": "C103",
   "status": "proved",
   "theorems": [
    "C103_accepted_exactly",
    "C103_nothing_before_a_nonce",
    "C103_any_number_of_credentials"
   ],
   "note": ""
  },
  {
   "property": "C104",
   "status": "partial",
   "theorems": [
    "C104_token_request",
    "C104_token_response",
    "C104_token_options",
    "C104_nonce",
    "C104_header",
    "C104_claims",
    "C104_evaluation_options",
    "C104_parsed_proof",
    "C104_credential",
    "C104_offer",
    "C104_request",
    "C104_response",
    "C104_metadata",
    "C104_credential_numbers",
    "C104_offer_numbers",
    "C104_request_numbers",
    "C104_response_numbers",
    "C104_metadata_numbers",
    "C104_numbers_exist",
    "C104_passed_on_unchanged",
    "C104_passed_on",
    "C104_dates",
    "C104_always_readable",
    "C104_refuted",
    "C104_never_settles"
   ],
   "note": "REFUTED for numbers: metadata with 4.6428839496425715e91 becomes 4.642883949642571e91 and back, for ever. Proved: every document that was read can be written and read again, any number of times, and nothing but such numbers changes."
  },
  {
   "property": "C105",
   "status": "proved",
   "theorems": [
    "C105_credential",
    "C105_offer",
    "C105_request",
    "C105_response",
    "C105_metadata",
    "C105_created_offer",
    "C105_every_f64"
   ],
   "note": ""
  },
  {
   "property": "C106",
   "status": "proved",
   "theorems": [
    "C106_value",
    "C106_credential",
    "C106_supported_credential",
    "C106_offer",
    "C106_response",
    "C106_result",
    "C106_error",
    "C106_error_responses",
    "C106_plain",
    "C106_return_object",
    "C106_equal_values_hash_equally",
    "C106_hashed_bytes_determine_value",
    "C106_equivalence_credential",
    "C106_equivalence_offer",
    "C106_equivalence_response",
    "C106_read",
    "C106_credential_documents",
    "C106_offer_documents",
    "C106_response_documents",
    "C106_token_evaluation",
    "C106_credential_evaluation"
   ],
   "note": ""
  },
  {
   "property": "C107",
   "status": "partial",
   "theorems": [
    "C107_default_offer_grants_nothing_refuted",
    "C107_default_offer_no_token",
    "C107_default_flow_redeemed_by",
    "C107_default_options_are_none",
    "C107_default_options_grant_nothing",
    "C107_default_nonce_is_expired",
    "C107_default_metadata_offers",
    "C107_default_metadata_audience",
    "C107_default_claims",
    "C107_default_reference",
    "C107_default_documents"
   ],
   "note": "REFUTED for credential requests under a default offer (evaluation only looks at its grants, C46); what each default value allows is proved exactly."
  },
  {
   "property": "C108",
   "status": "proved",
   "theorems": [
    "C108_url_length",
    "C108_url_bound",
    "C108_base64_length",
    "C108_issued_length",
    "C108_reading",
    "C108_writing",
    "C108_rewriting"
   ],
   "note": ""
  },
  {
   "property": "C109",
   "status": "proved",
   "theorems": [
    "C109_still_valid",
    "C109_resolution_kept",
    "C109_resolution_of_lists_kept",
    "C109_offers_kept",
    "C109_verdicts_kept",
    "C109_reused_id"
   ],
   "note": ""
  },
  {
   "property": "C110",
   "status": "proved",
   "theorems": [
    "C110_credential_verdict",
    "C110_credential",
    "C110_token_verdict",
    "C110_offer",
    "C110_arrives"
   ],
   "note": ""
  },
  {
   "property": "C111",
   "status": "proved",
   "theorems": [
    "C111_digits",
    "C111_length",
    "C111_after_reading"
   ],
   "note": ""
  },
  {
   "property": "C112",
   "status": "proved",
   "theorems": [
    "C112_documents",
    "C112_dated",
    "C112_dates"
   ],
   "note": ""
  },
  {
   "property": "C113",
   "status": "partial",
   "theorems": [
    "C113_request_read_as_response",
    "C113_refuted",
    "C113_otherwise"
   ],
   "note": "REFUTED for one pair of kinds: every credential request is also read as a credential response without credential. Proved: no other pair of kinds is confused, and exactly what is read in that one."
  },
  {
   "property": "C114",
   "status": "partial",
   "theorems": [
    "C114_leading_zero_refused",
    "C114_eight_digits_refuted",
    "C114_read_exactly",
    "C114_redeemed_exactly",
    "C114_told_apart"
   ],
   "note": "REFUTED: a PIN that starts with zero (0123) cannot be sent; the number 123 stands for both. Proved: exactly which sequences of digits are read and as what, exactly which redeem an offer, and that no two redeem the same one."
  },
  {
   "property": "C115",
   "status": "partial",
   "theorems": [
    "C115_key_twice_refuted",
    "C115_once_except_key",
    "C115_first_key_counts",
    "C115_last_field_counts"
   ],
   "note": "REFUTED for the key of a proof: kid (or jwk, x5c) can be given twice, and the first one counts, where many JSON readers take the last. Proved: no other name, at any depth of any document; that whatever follows the first key is not looked at; and that of additional metadata the last one counts."
  },
  {
   "property": "C116",
   "status": "partial",
   "theorems": [
    "C116_documents",
    "C116_offer_urls",
    "C116_encoded_bytes",
    "C116_cut_token_read_refuted",
    "C116_tokens_lose_only_signatures",
    "C116_no_gain"
   ],
   "note": "REFUTED for tokens: a token without its signature, or with part of it, is read. Proved: every document type and offer URL; that a cut token has the header and claims of the whole one, so that only its signature can be missing or shorter; and that whatever is accepted without its end is accepted, with the same subject and key, with it."
  },
  {
   "property": "C117",
   "status": "partial",
   "theorems": [
    "C117_offers_refuted",
    "C117_offers"
   ],
   "note": "REFUTED: an offer without grants is refused, and so is an offer with a JSON-LD credential, described by a credential_definition. Proved: which of the offers that follow the draft are read (if and only if)."
  },
  {
   "property": "C118",
   "status": "partial",
   "theorems": [
    "C118_requests_refuted",
    "C118_requests"
   ],
   "note": "REFUTED for JSON-LD credentials and claims with unlucky parts. Proved: which of the requests that follow the draft are read (if and only if)."
  },
  {
   "property": "C119",
   "status": "partial",
   "theorems": [
    "C119_metadata_refuted",
    "C119_metadata"
   ],
   "note": "REFUTED: one credential in another format, or with an unluckily named part of a claim, makes the document unreadable. Proved: which of the metadata documents that follow the draft are read (if and only if)."
  },
  {
   "property": "C120",
   "status": "partial",
   "theorems": [
    "C120_value_types_refuted",
    "C120_claims",
    "C120_no_claim_lost",
    "C120_value_types_lost",
    "C120_mdoc_claims_lost"
   ],
   "note": "REFUTED: value_type is not read. Proved: what exactly is learnt about each claim; that value types are always lost; that for mso_mdoc nothing is learnt about any claim."
  },
  {
   "property": "C121",
   "status": "partial",
   "theorems": [
    "C121_token_responses_refuted",
    "C121_token_responses"
   ],
   "note": "REFUTED: token_type bearer is refused, although it is case insensitive. Proved: which of the responses that follow the draft are read (if and only if)."
  },
  {
   "property": "C122",
   "status": "partial",
   "theorems": [
    "C122_credential_responses_refuted",
    "C122_credential_responses"
   ],
   "note": "REFUTED: a response with a credential is refused. Proved: exactly the responses without one (deferred issuance, numbers below 2^32) are read."
  },
  {
   "property": "C123",
   "status": "partial",
   "theorems": [
    "C123_keys_refuted",
    "C123_keys"
   ],
   "note": "REFUTED: a jwk object or x5c array is dropped silently. Proved: every header that follows the draft is read, with its kid or without any key."
  },
  {
   "property": "C124",
   "status": "partial",
   "theorems": [
    "C124_offers",
    "C124_requests",
    "C124_metadata",
    "C124_tokens",
    "C124_responses",
    "C124_keys",
    "C124_refuted"
   ],
   "note": "REFUTED for every kind of document: a value that is not there is written as null, JSON-LD credentials are written without credential_definition (and jwt_vc_json-ld without @context), claims of mso_mdoc without namespaces, a credential inside of an object named after a Rust variant, keys as texts. Proved: exactly which values are written according to the draft (if and only if, credential responses never)."
  },
  {
   "property": "C125",
   "status": "partial",
   "theorems": [
    "C125_token_errors",
    "C125_descriptions_refuted",
    "C125_descriptions",
    "C125_evaluation",
    "C125_algorithms",
    "C125_pre_evaluation",
    "C125_responses",
    "C125_offers"
   ],
   "note": "REFUTED for the credential endpoint (a jwk or x5c of the wallet's token and the quoted name of an algorithm are repeated); proved for the token endpoint, for created responses, and exactly which descriptions of all other errors can be sent and where the offending text is from."
  },
  {
   "property": "C126",
   "status": "partial",
   "theorems": [
    "C126_token_answers",
    "C126_credential_answers",
    "C126_answers_refuted"
   ],
   "note": "REFUTED (null is written for absent texts, and no written code is a registered one); proved: exactly which answers have the form of RFC 6749 apart from the code, and that the code never is registered."
  },
  {
   "property": "C127",
   "status": "partial",
   "theorems": [
    "C127_tokens_refuted",
    "C127_never_read",
    "C127_never_evaluated",
    "C127_never_pre_evaluated",
    "C127_never_answered",
    "C127_never_written"
   ],
   "note": "REFUTED, and the opposite proved: no token that follows the specification is read, no request with one is evaluated, pre-evaluated or answered, and no written claims follow the specification."
  },
  {
   "property": "C128",
   "status": "proved",
   "theorems": [
    "C128_token_documents",
    "C128_credential_documents",
    "C128_proof_documents",
    "C128_tokens",
    "C128_evidence",
    "C128_dates"
   ],
   "note": ""
  },
  {
   "property": "C129",
   "status": "proved",
   "theorems": [
    "C129_token_documents",
    "C129_credential_documents",
    "C129_proof_documents",
    "C129_errors",
    "C129_links"
   ],
   "note": ""
  },
  {
   "property": "C130",
   "status": "proved",
   "theorems": [
    "C130_offers",
    "C130_offer_errors",
    "C130_pre_evaluation",
    "C130_answers"
   ],
   "note": ""
  },
  {
   "property": "C131",
   "status": "partial",
   "theorems": [
    "C131_not_examined",
    "C131_not_later_refuted",
    "C131_not_before_refuted",
    "C131_subject_refuted"
   ],
   "note": "False of the code, and proved false for each of the three parts. Neither `iat` nor `sub` is looked at: C131_not_examined shows that changing them never changes the verdict."
  },
  {
   "property": "C132",
   "status": "partial",
   "theorems": [
    "C132_every_error_is_reported_refuted",
    "C132_no_other_errors",
    "C132_listed_errors",
    "C132_published_errors"
   ],
   "note": "False of the code: seven published errors are never reported. Proved instead: for each call exactly which codes are met (C132_no_other_errors, C132_listed_errors), and that the seven are the only exceptions (C132_published_errors)."
  },
  {
   "property": "C133",
   "status": "partial",
   "theorems": [
    "C133_wrong_code_hides_pin_refuted",
    "C133_pin_judged_with_any_code",
    "C133_requests_enough",
    "C133_code_only_by_sending_it",
    "C133_pin_only_by_sending_it",
    "C133_codes_needed",
    "C133_pins_needed",
    "C133_number_judges_pin",
    "C133_together_with_both_grants_partial"
   ],
   "note": "False of the code: the PIN is judged before the code. Proved instead: what each answer says about the PIN (C133_pin_judged_with_any_code), an attacker that needs fewer requests than PINs and codes together (C133_requests_enough), and that no adaptive attacker gets by with fewer requests than there are codes, or PINs (C133_codes_needed, C133_pins_needed). The full statement holds for offers with both grants if only error numbers are shown (C133_together_with_both_grants_partial), not for others (C133_number_judges_pin)."
  },
  {
   "property": "C134",
   "status": "partial",
   "theorems": [
    "C134_three_rejections_suffice",
    "C134_three_rejections_needed",
    "C134_numbers_keep_the_nonce_partial",
    "C134_numbers_keep_the_client_id",
    "C134_nonce_has_to_be_guessed_refuted"
   ],
   "note": "False of the code when errors are passed on: each names what was expected. Proved instead: a wallet that knows only its key is accepted after at most three rejections (C134_three_rejections_suffice), and none with fewer in general (C134_three_rejections_needed); and with only the numbers of the errors shown, the full statement (C134_numbers_keep_the_nonce_partial), for the client id too (C134_numbers_keep_the_client_id)."
  },
  {
   "property": "C135",
   "status": "partial",
   "theorems": [
    "C135_accepted_can_be_answered_refuted",
    "C135_accepted_can_be_answered_partial",
    "C135_pre_evaluated_can_be_answered",
    "C135_same_errors",
    "C135_answering_depends_on_the_request",
    "C135_refused_early_never_accepted"
   ],
   "note": "False of the code: evaluation accepts proofs of any type, pre-evaluation and answering do not. Proved for all requests of the right proof type (C135_accepted_can_be_answered_partial); the other directions are proved without restriction."
  },
  {
   "property": "C136",
   "status": "proved",
   "theorems": [
    "C136_codes_found",
    "C136_pins_found",
    "C136_pairs_found",
    "C136_pairs_found_exactly",
    "C136_pairs_found_by_numbers",
    "C136_nonces_found_by_numbers",
    "C136_clients_found_by_numbers"
   ],
   "note": ""
  },
  {
   "property": "C137",
   "status": "proved",
   "theorems": [
    "C137_nonce_gates",
    "C137_client_id_gates",
    "C137_keys_gated"
   ],
   "note": ""
  },
  {
   "property": "C138",
   "status": "proved",
   "theorems": [
    "C138_token_requests",
    "C138_credential_requests",
    "C138_pre_evaluation",
    "C138_answers",
    "C138_offers",
    "C138_resolving",
    "C138_time_window",
    "C138_keys",
    "C138_reading_tokens",
    "C138_proof_methods",
    "C138_validating_token_requests",
    "C138_validating_token_answers",
    "C138_validating_metadata",
    "C138_validating_offers",
    "C138_validating_requests",
    "C138_validating_proofs",
    "C138_validating_keys",
    "C138_codes",
    "C138_token_answers",
    "C138_error_answers",
    "C138_parts"
   ],
   "note": ""
  },
  {
   "property": "C139",
   "status": "proved",
   "theorems": [
    "C139_agreement",
    "C139_nonce_of_the_session",
    "C139_no_more_than_signed",
    "C139_standard_wallets_get_nothing",
    "C139_decodable_evidence"
   ],
   "note": ""
  },
  {
   "property": "C140",
   "status": "proved",
   "theorems": [
    "C140_careful_callers"
   ],
   "note": ""
  },
  {
   "property": "C141",
   "status": "partial",
   "theorems": [
    "C141_forgotten_afterwards_refuted",
    "C141_codes_forgotten_afterwards_refuted",
    "C141_as_often_as_at_the_same_time",
    "C141_codes_as_often_as_at_the_same_time",
    "C141_that_often_it_happens",
    "C141_codes_that_often_it_happens",
    "C141_once",
    "C141_codes_once",
    "C141_as_if_one_at_a_time",
    "C141_codes_as_if_one_at_a_time",
    "C141_refusals_cost_nothing",
    "C141_codes_refusals_cost_nothing",
    "C141_taken_first_refuted"
   ],
   "note": "False of the code for callers that forget afterwards, which the library's stateless interface suggests: a token or code is accepted as often as requests overlap (C141_that_often_it_happens), and that is also the bound (C141_as_often_as_at_the_same_time). Proved instead for callers that claim what they read: once, as if requests were handled one after another, and without loss by refused requests; taking it first also gives once, but C141_taken_first_refuted shows the loss."
  },
  {
   "property": "C142",
   "status": "partial",
   "theorems": [
    "C142_other_spellings",
    "C142_read_as_the_same",
    "C142_different_texts",
    "C142_same_outcome",
    "C142_as_often_as_wanted",
    "C142_texts_remembered_refuted",
    "C142_messages_remembered",
    "C142_spellings_caught"
   ],
   "note": "False of the code: C142_texts_remembered_refuted. What is accepted once is accepted in as many spellings as wanted (C142_as_often_as_wanted). Proved instead: remembering messages catches every spelling of an accepted proof (C142_messages_remembered, C142_spellings_caught)."
  },
  {
   "property": "C143",
   "status": "partial",
   "theorems": [
    "C143_ids_reused_refuted",
    "C143_ids_not_reused",
    "C143_versions_valid",
    "C143_withdrawal",
    "C143_kept_exactly_when",
    "C143_given_in_full",
    "C143_careful_callers"
   ],
   "note": "False of the code when ids are reused: C143_ids_reused_refuted. Proved instead for issuers that never reuse an id (C143_ids_not_reused), for single withdrawals, for credentials given in full, and, for any change, exactly when the meaning is kept (C143_kept_exactly_when)."
  },
  {
   "property": "C144",
   "status": "partial",
   "theorems": [
    "C144_accepted_if_marked",
    "C144_critical_refuted",
    "C144_extensions_not_seen",
    "C144_same_outcome",
    "C144_none_written"
   ],
   "note": "False of the code: C144_critical_refuted; every accepted token can be marked (C144_accepted_if_marked). Proved instead: no extension is seen by any call (C144_extensions_not_seen, C144_same_outcome), and none is written (C144_none_written)."
  },
  {
   "property": "C145",
   "status": "partial",
   "theorems": [
    "C145_any_algorithm",
    "C145_algorithm_refuted",
    "C145_right_exactly",
    "C145_take_EdDSA_only"
   ],
   "note": "False of the code: C145_algorithm_refuted; any algorithm can be stated for any accepted proof (C145_any_algorithm). Proved instead: exactly when it suits (C145_right_exactly), and what callers can rely on if they take EdDSA only (C145_take_EdDSA_only)."
  },
  {
   "property": "C146",
   "status": "partial",
   "theorems": [
    "C146_any_document_refuted",
    "C146_document_as_told",
    "C146_always_told",
    "C146_own_keys",
    "C146_own_keys_only"
   ],
   "note": "False of the code: C146_any_document_refuted. Proved instead: it holds if the document is that of the DID which pre-evaluation named (C146_document_as_told, C146_always_told), and with other documents exactly if they have keys of their own DID only (C146_own_keys, C146_own_keys_only)."
  },
  {
   "property": "C147",
   "status": "partial",
   "theorems": [
    "C147_asked_for",
    "C147_key_of_that_time",
    "C147_lost_keys",
    "C147_asked_for_with_a_cache",
    "C147_any_document_refuted",
    "C147_lost_keys_with_a_cache_refuted"
   ],
   "note": "False if callers supply any document: C147_any_document_refuted; lost keys stay usable if documents are cached: C147_lost_keys_with_a_cache_refuted. Proved for callers that supply the document of the DID which pre-evaluation names (C147_asked_for, C147_key_of_that_time, C147_lost_keys), and with a cache for keys that are kept (C147_asked_for_with_a_cache)."
  },
  {
   "property": "C148",
   "status": "partial",
   "theorems": [
    "C148_exactly_without_dots",
    "C148_whatever_is_signed",
    "C148_dots",
    "C148_no_history",
    "C148_domain_names_refuted"
   ],
   "note": "False of the code: C148_domain_names_refuted. Proved instead: exactly when it is possible (C148_exactly_without_dots, C148_whatever_is_signed), and that it never is with a dot (C148_dots, C148_no_history)."
  },
  {
   "property": "C149",
   "status": "proved",
   "theorems": [
    "C149_agreement",
    "C149_nonce_of_the_session",
    "C149_no_more_than_signed",
    "C149_everyone_is_served"
   ],
   "note": ""
  },
  {
   "property": "C150",
   "status": "proved",
   "theorems": [
    "C150_asked_for",
    "C150_key_of_that_time",
    "C150_lost_keys",
    "C150_nonce_of_the_session",
    "C150_owners_are_served"
   ],
   "note": ""
  }
 ]
}
