{
 "claims": [
  {
   "property": "C01",
   "status": "proved",
   "theorems": [
    "C01_writer_appends"
   ],
   "note": ""
  },
  {
   "property": "C02",
   "status": "proved",
   "theorems": [
    "C02_get_bits"
   ],
   "note": ""
  },
  {
   "property": "C03",
   "status": "proved",
   "theorems": [
    "C03_fixed_reads",
    "C03_get_slice",
    "C03_skip_reserved",
    "C03_skip_reserved_verdict",
    "C03_skip_reserved_cases",
    "C03_skip_ignored"
   ],
   "note": ""
  },
  {
   "property": "C04",
   "status": "proved",
   "theorems": [
    "C04_int_roundtrip",
    "C04_int_roundtrip_exact"
   ],
   "note": ""
  },
  {
   "property": "C05",
   "status": "proved",
   "theorems": [
    "C05_cursor_safety",
    "C05_bits0_panics",
    "C05_short_dest_panics"
   ],
   "note": ""
  },
  {
   "property": "C06",
   "status": "proved",
   "theorems": [
    "C06_transcript_is_bounded_log",
    "C06_failed_extend_changes_nothing"
   ],
   "note": ""
  },
  {
   "property": "C07",
   "status": "proved",
   "theorems": [
    "C07_get_version_write",
    "C07_get_version_parse",
    "C07_version_write",
    "C07_version_write_full",
    "C07_version_round_trip",
    "C07_version_parse",
    "C07_version_rejects"
   ],
   "note": ""
  },
  {
   "property": "C08",
   "status": "proved",
   "theorems": [
    "C08_get_capabilities_write",
    "C08_capabilities_write",
    "C08_get_capabilities_round_trip",
    "C08_capabilities_round_trip",
    "C08_get_capabilities_parse",
    "C08_capabilities_parse"
   ],
   "note": ""
  },
  {
   "property": "C09",
   "status": "proved",
   "theorems": [
    "C09_negotiate_write",
    "C09_negotiate_round_trip",
    "C09_negotiate_parse",
    "C09_extended_algorithms_skipped"
   ],
   "note": ""
  },
  {
   "property": "C10",
   "status": "proved",
   "theorems": [
    "C10_algorithms_write",
    "C10_algorithms_round_trip",
    "C10_algorithms_parse",
    "C10_one_selection"
   ],
   "note": ""
  },
  {
   "property": "C11",
   "status": "proved",
   "theorems": [
    "C11_get_digests_write",
    "C11_digests_write",
    "C11_digests_parse",
    "C11_digests_round_trip"
   ],
   "note": ""
  },
  {
   "property": "C12",
   "status": "proved",
   "theorems": [
    "C12_get_certificate_write",
    "C12_get_certificate_parse",
    "C12_get_certificate_round_trip",
    "C12_certificate_write",
    "C12_certificate_parse",
    "C12_certificate_round_trip",
    "C12_portion_length_refused"
   ],
   "note": ""
  },
  {
   "property": "C13",
   "status": "proved",
   "theorems": [
    "C13_build",
    "C13_chain_write",
    "C13_too_long",
    "C13_chain_parse",
    "C13_chain_round_trip"
   ],
   "note": ""
  },
  {
   "property": "C14",
   "status": "proved",
   "theorems": [
    "C14_challenge_write",
    "C14_challenge_parse",
    "C14_challenge_round_trip",
    "C14_hash_type_refused"
   ],
   "note": ""
  },
  {
   "property": "C15",
   "status": "partial",
   "theorems": [
    "C15_challenge_auth_write",
    "C15_challenge_auth_reads_back",
    "C15_challenge_auth_round_trip_partial",
    "C15_mutual_auth_refuted",
    "C15_challenge_auth_parse"
   ],
   "note": "Holds for use_mutual_auth = false. With use_mutual_auth = true the writer emits slot & 0x80, losing both fields: C15_mutual_auth_refuted."
  },
  {
   "property": "C16",
   "status": "proved",
   "theorems": [
    "C16_error_write",
    "C16_error_round_trip",
    "C16_error_parse",
    "C16_codes_distinct"
   ],
   "note": ""
  },
  {
   "property": "C17",
   "status": "proved",
   "theorems": [
    "C17_opaque_write",
    "C17_alignment",
    "C17_opaque_read",
    "C17_opaque_round_trip",
    "C17_write_refuses_mismatch",
    "C17_read_refuses_mismatch"
   ],
   "note": ""
  },
  {
   "property": "C18",
   "status": "proved",
   "theorems": [
    "C18_get_measurements_write",
    "C18_get_measurements_parse",
    "C18_get_measurements_round_trip",
    "C18_get_measurements_round_trip_exact",
    "C18_bad_index_refused",
    "C18_parse_refuses"
   ],
   "note": ""
  },
  {
   "property": "C19",
   "status": "partial",
   "theorems": [
    "C19_measurements_write",
    "C19_measurements_round_trip_partial",
    "C19_large_record_refuted",
    "C19_measurements_parse"
   ],
   "note": "Round trip proved for records within the parser's limit MAX_MEASUREMENT_SIZE*MAX_MEASUREMENT_BLOCKS; larger records of valid blocks are written but refused on parse: C19_large_record_refuted."
  },
  {
   "property": "C20",
   "status": "proved",
   "theorems": [
    "C20_parse_header",
    "C20_short_panics",
    "C20_written_recognised"
   ],
   "note": ""
  },
  {
   "property": "C21",
   "status": "proved",
   "theorems": [
    "C21_write_exact",
    "C21_write_in_bounds"
   ],
   "note": ""
  },
  {
   "property": "C22",
   "status": "proved",
   "theorems": [
    "C22_request_parsers_never_panic"
   ],
   "note": ""
  },
  {
   "property": "C23",
   "status": "partial",
   "theorems": [
    "C23_response_parsers_never_panic_partial",
    "C23_challenge_auth_panics_iff",
    "C23_measurements_panics_iff",
    "C23_chain_panics_iff"
   ],
   "note": "Proved for every message whose parser cannot panic; CHALLENGE_AUTH, MEASUREMENTS, opaque data and certificate chains panic exactly on the inputs characterised by the C23_*_panics_iff theorems."
  },
  {
   "property": "C24",
   "status": "proved",
   "theorems": [
    "C24_get_version_restarts"
   ],
   "note": ""
  },
  {
   "property": "C25",
   "status": "proved",
   "theorems": [
    "C25_protocol_order",
    "C25_accepted",
    "C25_rejected"
   ],
   "note": ""
  },
  {
   "property": "C26",
   "status": "proved",
   "theorems": [
    "C26_error_response",
    "C26_error_encodes",
    "C26_success_response"
   ],
   "note": ""
  },
  {
   "property": "C27",
   "status": "proved",
   "theorems": [
    "C27_transcript_is_log"
   ],
   "note": ""
  },
  {
   "property": "C28",
   "status": "partial",
   "theorems": [
    "C28_selection_partial",
    "C28_empty_offer_refuted"
   ],
   "note": "The lowest offered algorithm is selected in every build with overflow checks and for every offer without an empty list. For an empty list a release build selects bit 0, which was not offered: C28_empty_offer_refuted (a debug build panics: C32_empty_offer_refuted)."
  },
  {
   "property": "C29",
   "status": "proved",
   "theorems": [
    "C29_digests",
    "C29_digests_answered"
   ],
   "note": ""
  },
  {
   "property": "C30",
   "status": "proved",
   "theorems": [
    "C30_certificate",
    "C30_certificate_answered",
    "C30_invalid_slot"
   ],
   "note": ""
  },
  {
   "property": "C31",
   "status": "partial",
   "theorems": [
    "C31_challenge_auth_partial",
    "C31_challenge_answered",
    "C31_invalid_slot",
    "C31_mutual_auth_refuted"
   ],
   "note": "Everything but the slot number on the wire is proved unconditionally; the slot is the requested one unless both sides announce MUT_AUTH_CAP and a slot other than 0 is asked for, when the code writes 0: C31_mutual_auth_refuted."
  },
  {
   "property": "C32",
   "status": "partial",
   "theorems": [
    "C32_panic_causes",
    "C32_no_panic_partial",
    "C32_empty_offer_refuted",
    "C32_sha3_refuted",
    "C32_rsa_refuted"
   ],
   "note": "Every panic has one of the listed causes (C32_panic_causes), and none occurs when every request is longer than the header and every NEGOTIATE_ALGORITHMS offers, as its lowest choices, algorithms this build can use. An attacker can trigger panics otherwise: C32_empty_offer_refuted, C32_sha3_refuted, C32_rsa_refuted. C54_panics_iff says exactly which requests panic in every reachable state."
  },
  {
   "property": "C33",
   "status": "proved",
   "theorems": [
    "C33_reset_is_new"
   ],
   "note": ""
  },
  {
   "property": "C34",
   "status": "proved",
   "theorems": [
    "C34_highest_common",
    "C34_one_case",
    "C34_order_irrelevant",
    "C34_error_meaning"
   ],
   "note": ""
  },
  {
   "property": "C35",
   "status": "proved",
   "theorems": [
    "C35_selected_was_offered",
    "C35_refused"
   ],
   "note": ""
  },
  {
   "property": "C36",
   "status": "proved",
   "theorems": [
    "C36_session_grammar",
    "C36_protocol_order",
    "C36_completion"
   ],
   "note": ""
  },
  {
   "property": "C37",
   "status": "proved",
   "theorems": [
    "C37_transcript_is_log"
   ],
   "note": ""
  },
  {
   "property": "C38",
   "status": "proved",
   "theorems": [
    "C38_authentication"
   ],
   "note": ""
  },
  {
   "property": "C39",
   "status": "proved",
   "theorems": [
    "C39_honest_run"
   ],
   "note": ""
  },
  {
   "property": "C40",
   "status": "partial",
   "theorems": [
    "C40_agreement_partial",
    "C40_refuted",
    "C40_requester_exact_refuted",
    "C40_responder_exact_refuted"
   ],
   "note": "The property as stated is false: parsers accept trailing bytes, which go into the transcript, so an attacker on the transport can make the two sides disagree on capabilities and algorithms although the transcripts are equal and the signature verifies: C40_refuted. C40_agreement_partial proves it when no message carries trailing bytes; requiring that of one side only is not enough: C40_requester_exact_refuted, C40_responder_exact_refuted."
  },
  {
   "property": "C41",
   "status": "proved",
   "theorems": [
    "C41_complete_is_final",
    "C41_complete_meaning",
    "C41_next_keeps_state",
    "C41_error_state",
    "C41_error_is_final",
    "C41_success_means_session"
   ],
   "note": ""
  },
  {
   "property": "C42",
   "status": "partial",
   "theorems": [
    "C42_certificate_used_partial",
    "C42_refuted",
    "C42_unforged_partial"
   ],
   "note": "Proved: slot 0 is requested, one CERTIFICATE message is accepted, and its slot and chain are the ones used in CHALLENGE and in the authentication. Not true of the code: that this slot is the requested one, or that the announced digest matches the chain: C42_refuted. Both hold when nobody can forge and no message has trailing bytes (C42_unforged_partial)."
  },
  {
   "property": "C43",
   "status": "proved",
   "theorems": [
    "C43_any_buffer",
    "C43_bin_to_der",
    "C43_zero_half_panics",
    "C43_der_unambiguous",
    "C43_der_canonical",
    "C43_bound_attained"
   ],
   "note": ""
  },
  {
   "property": "C44",
   "status": "proved",
   "theorems": [
    "C44_accepted_config_never_fails",
    "C44_refused",
    "C44_verdict"
   ],
   "note": ""
  },
  {
   "property": "C45",
   "status": "proved",
   "theorems": [
    "C45_slot_mask"
   ],
   "note": ""
  },
  {
   "property": "C46",
   "status": "proved",
   "theorems": [
    "C46_trailing_bytes_ignored",
    "C46_value_determined"
   ],
   "note": ""
  },
  {
   "property": "C47",
   "status": "partial",
   "theorems": [
    "C47_panic_iff_partial",
    "C47_next_never_panics",
    "C47_refuted_opaque_elements",
    "C47_refuted_opaque_size",
    "C47_refuted_zero_signature",
    "C47_refuted_bad_tag",
    "C47_refuted_slot_8",
    "C47_refuted_small_digests"
   ],
   "note": "next_request never panics in a session, and C47_panic_iff_partial gives exactly the responses on which handle_msg panics: all in the challenge step, in every build accepted by build.rs with 64 byte digests. The property itself is false: C47_refuted_opaque_elements, C47_refuted_opaque_size, C47_refuted_zero_signature, C47_refuted_bad_tag, C47_refuted_slot_8, C47_refuted_small_digests. C59_panics_iff gives the exact condition in every reachable state and build."
  },
  {
   "property": "C48",
   "status": "partial",
   "theorems": [
    "C48_sized_buf_constructors",
    "C48_sized_buf_eq",
    "C48_opaque_element_eq",
    "C48_chain_eq",
    "C48_chain_builder",
    "C48_transcript_eq_partial",
    "C48_transcript_eq_iff",
    "C48_transcript_eq_refuted"
   ],
   "note": "Proved for DigestBuf, SignatureBuf, OpaqueElement, BitStream and CertificateChain; Transcript equality also compares stale bytes: C48_transcript_eq_refuted."
  },
  {
   "property": "C49",
   "status": "proved",
   "theorems": [
    "C49_registry_codes",
    "C49_hash_type_codes",
    "C49_value_type_codes",
    "C49_representation_codes",
    "C49_content_changed_codes",
    "C49_index_codes",
    "C49_requester_flag_names",
    "C49_responder_flag_names",
    "C49_asym_names",
    "C49_hash_names",
    "C49_algorithm_constants",
    "C49_names_denote_spdm_bits",
    "C49_constants_are_spdm_bits",
    "C49_mode_bits"
   ],
   "note": ""
  },
  {
   "property": "C50",
   "status": "proved",
   "theorems": [
    "C50_signature_covers_history",
    "C50_challenges_differ"
   ],
   "note": ""
  },
  {
   "property": "C51",
   "status": "proved",
   "theorems": [
    "C51_specification_determines",
    "C51_responder_answers_iff"
   ],
   "note": ""
  },
  {
   "property": "C52",
   "status": "proved",
   "theorems": [
    "C52_specification_determines",
    "C52_requester_sends_iff",
    "C52_requester_accepts_iff"
   ],
   "note": ""
  },
  {
   "property": "C53",
   "status": "proved",
   "theorems": [
    "C53_responder",
    "C53_responder_history",
    "C53_requester"
   ],
   "note": ""
  },
  {
   "property": "C54",
   "status": "proved",
   "theorems": [
    "C54_verdict_exists",
    "C54_verdict",
    "C54_answers_iff",
    "C54_panics_iff",
    "C54_fails_iff",
    "C54_after_panic",
    "C54_error_iff"
   ],
   "note": ""
  },
  {
   "property": "C55",
   "status": "proved",
   "theorems": [
    "C55_get_measurements_new",
    "C55_get_measurements_sent",
    "C55_measurements_new",
    "C55_challenge_auth_new",
    "C55_default_values",
    "C55_bit_stream",
    "C55_bit_stream_read"
   ],
   "note": ""
  },
  {
   "property": "C56",
   "status": "proved",
   "theorems": [
    "C56_round_trip_any",
    "C56_unambiguous"
   ],
   "note": ""
  },
  {
   "property": "C57",
   "status": "proved",
   "theorems": [
    "C57_canonical",
    "C57_other_kinds"
   ],
   "note": ""
  },
  {
   "property": "C58",
   "status": "proved",
   "theorems": [
    "C58_reencoded",
    "C58_writable",
    "C58_mutual_auth_refuted",
    "C58_unsigned_slot_refuted",
    "C58_reencoded_iff",
    "C58_writable_iff"
   ],
   "note": ""
  },
  {
   "property": "C59",
   "status": "proved",
   "theorems": [
    "C59_hear_verdict",
    "C59_accepts_iff",
    "C59_panics_iff",
    "C59_fails_iff",
    "C59_ask_verdict",
    "C59_sends_iff",
    "C59_after_panic",
    "C59_error_iff",
    "C59_ask_error_iff"
   ],
   "note": ""
  },
  {
   "property": "C60",
   "status": "proved",
   "theorems": [
    "C60_slot_isolation",
    "C60_keys_only_for_challenge",
    "C60_negotiation_ignores_slots",
    "C60_digest_part"
   ],
   "note": ""
  },
  {
   "property": "C61",
   "status": "partial",
   "theorems": [
    "C61_requester_states",
    "C61_requester_never_panics",
    "C61_responder_partial",
    "C61_responder_refuted"
   ],
   "note": "Proved for the requester. For the responder proved when no slot is filled (C61_responder_partial); with a filled slot GET_DIGESTS reaches the dummy hash and panics although no capability was announced: C61_responder_refuted."
  },
  {
   "property": "C62",
   "status": "proved",
   "theorems": [
    "C62_incremental",
    "C62_chunking",
    "C62_digest_refines",
    "C62_new_signer",
    "C62_configured_signers",
    "C62_sign",
    "C62_sign_verify",
    "C62_ring_slot",
    "C62_p384_verify_panics",
    "C62_p384_verify_exact"
   ],
   "note": ""
  },
  {
   "property": "C63",
   "status": "partial",
   "theorems": [
    "C63_partial",
    "C63_announced_partial",
    "C63_refuted",
    "C63_begin_session_refuted"
   ],
   "note": "False as stated: a peer (or attacker) that announces no CERT_CAP or no CHAL_CAP makes the requester complete without any authentication (C63_refuted), and begin_session is not guarded by the state at all (C63_begin_session_refuted). Proved: every completion is either authenticated or follows a CAPABILITIES message without one of the two flags."
  },
  {
   "property": "C64",
   "status": "proved",
   "theorems": [
    "C64_authentication",
    "C64_agreement"
   ],
   "note": ""
  },
  {
   "property": "C65",
   "status": "partial",
   "theorems": [
    "C65_answers_partial",
    "C65_fresh_partial",
    "C65_replay_refuted",
    "C65_unsolicited_panic_refuted"
   ],
   "note": "False as stated: handle_msg does not remember whether a request was sent. Recorded messages, with the recorded CHALLENGE appended to CERTIFICATE as trailing bytes, authenticate to a requester that never sent a CHALLENGE (C65_replay_refuted, no forgery and no collision needed), and an unsolicited CAPABILITIES panics (C65_unsolicited_panic_refuted). Proved: every accepted response answers the last request sent or comes with no request outstanding (never CAPABILITIES); and a requester that did send a CHALLENGE with a nonce unknown to all responders accepts nothing (C65_fresh_partial)."
  },
  {
   "property": "C66",
   "status": "proved",
   "theorems": [
    "C66_available",
    "C66_condition_needed",
    "C66_available_after_reset",
    "C66_forever"
   ],
   "note": ""
  },
  {
   "property": "C67",
   "status": "proved",
   "theorems": [
    "C67_generated_code",
    "C67_refused",
    "C67_no_injection"
   ],
   "note": ""
  },
  {
   "property": "C68",
   "status": "partial",
   "theorems": [
    "C68_requester_headers",
    "C68_requester_partial",
    "C68_responder_headers",
    "C68_error_header",
    "C68_version_1_0_refuted",
    "C68_error_refuted"
   ],
   "note": "False as stated: a requester that selects version 1.0 goes on with 1.1 headers (C68_version_1_0_refuted), and the responder's ERROR messages carry 1.2 although VERSION lists 1.0 and 1.1 (C68_error_refuted). Proved: exactly which first byte every message has, and that it is the negotiated one whenever 1.1 was selected."
  },
  {
   "property": "C69",
   "status": "proved",
   "theorems": [
    "C69_padding_balanced",
    "C69_padding_detected",
    "C69_readme_loop"
   ],
   "note": ""
  },
  {
   "property": "C70",
   "status": "partial",
   "theorems": [
    "C70_requester_partial",
    "C70_vca_only_partial",
    "C70_responder_refuted",
    "C70_no_psk"
   ],
   "note": "Proved for the requester (C70_requester_partial, C70_vca_only_partial). False of the responder, which answers GET_DIGESTS, GET_CERTIFICATE and CHALLENGE although it announced no capability: C70_responder_refuted. A configuration with PSK_CAP is refused by build.rs (C70_no_psk), so that part never applies."
  },
  {
   "property": "C71",
   "status": "proved",
   "theorems": [
    "C71_responder",
    "C71_responder_history",
    "C71_larger_buffer",
    "C71_requester",
    "C71_requester_history",
    "C71_request_room_needed",
    "C71_response_room_needed"
   ],
   "note": ""
  },
  {
   "property": "C72",
   "status": "proved",
   "theorems": [
    "C72_completes_iff",
    "C72_sufficient",
    "C72_documented_rule_insufficient"
   ],
   "note": ""
  },
  {
   "property": "C73",
   "status": "proved",
   "theorems": [
    "C73_get_version",
    "C73_get_digests",
    "C73_get_capabilities",
    "C73_capabilities",
    "C73_get_certificate",
    "C73_certificate",
    "C73_challenge",
    "C73_version",
    "C73_get_measurements",
    "C73_error",
    "C73_negotiate_algorithms",
    "C73_algorithms",
    "C73_digests",
    "C73_certificate_chain",
    "C73_challenge_auth",
    "C73_measurements",
    "C73_challenge_auth_slot_misnamed",
    "C73_representation_error_never",
    "C73_error_iff"
   ],
   "note": ""
  },
  {
   "property": "C74",
   "status": "proved",
   "theorems": [
    "C74_get_version",
    "C74_get_digests",
    "C74_get_capabilities",
    "C74_capabilities",
    "C74_get_certificate",
    "C74_challenge",
    "C74_error",
    "C74_version",
    "C74_negotiate_algorithms",
    "C74_algorithms",
    "C74_digests",
    "C74_certificate",
    "C74_certificate_chain",
    "C74_opaque_data",
    "C74_challenge_auth",
    "C74_get_measurements",
    "C74_measurements",
    "C74_challenge_auth_room",
    "C74_error_iff"
   ],
   "note": ""
  },
  {
   "property": "C75",
   "status": "proved",
   "theorems": [
    "C75_responder_bytes",
    "C75_responder_count",
    "C75_requester_bytes",
    "C75_requester_count"
   ],
   "note": ""
  },
  {
   "property": "C76",
   "status": "proved",
   "theorems": [
    "C76_other_message_refused",
    "C76_error_not_answer",
    "C76_failure_stops_both"
   ],
   "note": ""
  },
  {
   "property": "C77",
   "status": "partial",
   "theorems": [
    "C77_summary_is_zeros_partial",
    "C77_type_ignored_partial",
    "C77_requester_asks_none",
    "C77_requester_wants_summary_partial",
    "C77_no_summary_refused",
    "C77_summary_refuted"
   ],
   "note": "False as stated: the responder ignores the requested type and always sends a summary of zeros as long as a digest, also when none was requested (C77_summary_refuted; C77_type_ignored_partial and C77_summary_is_zeros_partial say exactly what it sends), and the requester, which always requests none, refuses answers without one (C77_no_summary_refused)."
  },
  {
   "property": "C78",
   "status": "partial",
   "theorems": [
    "C78_repeat_same_partial",
    "C78_repeat_challenge_partial",
    "C78_repeat_refused",
    "C78_replay_refused",
    "C78_repeat_refuted"
   ],
   "note": "False as stated: GET_CAPABILITIES, NEGOTIATE_ALGORITHMS and GET_CERTIFICATE sent again are refused and end the session (C78_repeat_refused, witness C78_repeat_refuted). Proved: GET_VERSION and GET_DIGESTS get the same answer again, CHALLENGE a new one with a new nonce; an accepted response is never accepted again (C78_replay_refused)."
  },
  {
   "property": "C79",
   "status": "proved",
   "theorems": [
    "C79_same_requests",
    "C79_nonce_only_in_challenge"
   ],
   "note": ""
  },
  {
   "property": "C80",
   "status": "proved",
   "theorems": [
    "C80_same_answers",
    "C80_same_histories",
    "C80_restart_forgets"
   ],
   "note": ""
  },
  {
   "property": "C81",
   "status": "proved",
   "theorems": [
    "C81_responder_shows",
    "C81_responder_keeps",
    "C81_requester_shows",
    "C81_requester_keeps",
    "C81_responder_name",
    "C81_requester_name"
   ],
   "note": ""
  },
  {
   "property": "C82",
   "status": "proved",
   "theorems": [
    "C82_responder_call",
    "C82_responder_history",
    "C82_requester_call",
    "C82_requester_next",
    "C82_requester_history"
   ],
   "note": ""
  },
  {
   "property": "C83",
   "status": "proved",
   "theorems": [
    "C83_responder",
    "C83_requester",
    "C83_requester_slots",
    "C83_same_requester"
   ],
   "note": ""
  },
  {
   "property": "C84",
   "status": "proved",
   "theorems": [
    "C84_writer",
    "C84_reader",
    "C84_transcript",
    "C84_chain_length",
    "C84_chain_length_wraps",
    "C84_chain_write",
    "C84_chain_parse",
    "C84_opaque_size",
    "C84_record_size",
    "C84_signature_lengths"
   ],
   "note": ""
  },
  {
   "property": "C85",
   "status": "proved",
   "theorems": [
    "C85_working_source",
    "C85_requester",
    "C85_requester_histories",
    "C85_responder",
    "C85_no_answer_without_entropy",
    "C85_responder_histories"
   ],
   "note": ""
  },
  {
   "property": "C86",
   "status": "proved",
   "theorems": [
    "C86_loop_ends",
    "C86_exchanges",
    "C86_complete",
    "C86_no_request",
    "C86_documented_pair"
   ],
   "note": ""
  },
  {
   "property": "C87",
   "status": "partial",
   "theorems": [
    "C87_uses",
    "C87_default_file_partial",
    "C87_first_partial",
    "C87_stale",
    "C87_output",
    "C87_fails",
    "C87_edit_ignored_refuted"
   ],
   "note": "False when SPDM_CONFIG names a file other than spdm-config.toml, as README.adoc tells users to do: build.rs does not tell cargo to watch that file, so later edits of it, even ones it would refuse, are not compiled in (C87_stale, C87_edit_ignored_refuted). Proved for the default file and for the first build, and C87_uses says exactly what a build uses in every history."
  },
  {
   "property": "C88",
   "status": "partial",
   "theorems": [
    "C88_whole_partial",
    "C88_root_hash_ignored",
    "C88_requester_refuted",
    "C88_responder_refuted"
   ],
   "note": "False as stated: the requester does not look at the number of bytes remaining nor at the root hash in the chain (C88_requester_refuted; trust never depends on that hash: C88_root_hash_ignored), and the responder ignores offset and length and sends the whole chain (C88_responder_refuted). Proved: without forgeries and trailing bytes the chain authenticated with is slot 0 of the responder that signed, received whole, with the digest that was announced for it."
  },
  {
   "property": "C89",
   "status": "partial",
   "theorems": [
    "C89_too_many_refused",
    "C89_accepted_iff_partial",
    "C89_third_version_refuted"
   ],
   "note": "False as stated: VERSION with more than two entries is refused (C89_too_many_refused), even if it lists 1.0 and 1.1 (C89_third_version_refuted). Proved: a list with a common version is accepted exactly when it has at most two entries; the version is then the highest common one (C34)."
  },
  {
   "property": "C90",
   "status": "partial",
   "theorems": [
    "C90_hash",
    "C90_signature_iff_partial",
    "C90_same_implementation",
    "C90_signature_refuted",
    "C90_then_panics_refuted"
   ],
   "note": "True of hashes (C90_hash). False of signatures: the responder selects the lowest offered algorithm without looking at its own configuration (C90_signature_refuted) and then panics on CHALLENGE (C90_then_panics_refuted). Proved: it selects a configured algorithm exactly when P-256 is offered, nothing lower is, and the build has signature algorithms; with a requester of this implementation always."
  },
  {
   "property": "C91",
   "status": "partial",
   "theorems": [
    "C91_slot_zero_partial",
    "C91_other_slot_refuted"
   ],
   "note": "False as stated: the requester always asks for slot 0, whatever the slot mask of DIGESTS says; with the chain in slot 3 only, DIGESTS announces it, an empty chain is sent and accepted, and the CHALLENGE is refused (C91_other_slot_refuted). Proved: true if slot 0 holds the chain (C39_honest_run), and only then: after an authenticated faithful run slot 0 of the responder holds the chain the requester trusts (C91_slot_zero_partial)."
  },
  {
   "property": "C92",
   "status": "proved",
   "theorems": [
    "C92_retry",
    "C92_log_kept",
    "C92_no_trace"
   ],
   "note": ""
  },
  {
   "property": "C93",
   "status": "proved",
   "theorems": [
    "C93_keys_used",
    "C93_same_signed_same_answer",
    "C93_answer_signs",
    "C93_fresh_nonce_fresh_signature",
    "C93_never_twice"
   ],
   "note": ""
  },
  {
   "property": "C94",
   "status": "partial",
   "theorems": [
    "C94_one_session_partial",
    "C94_one_session_refuted"
   ],
   "note": "False as stated: no parser refuses trailing bytes and all of a message is logged, so the same log can be split in two ways; if max_element_data_size is 256 (build.rs accepts it), two requesters with different nonces both authenticate from one answered CHALLENGE, the second requester's CHALLENGE hidden in opaque data of the first one's CHALLENGE_AUTH, the first one's hidden behind the second one's CERTIFICATE (C94_one_session_refuted). Proved: true when the messages are exactly framed, unless one of the two requesters' logs collides with the responder's (C94_one_session_partial)."
  }
 ]
}