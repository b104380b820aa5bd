STATUS={
"C15":("partial","Holds for use_mutual_auth = false. With use_mutual_auth = true the writer emits slot & 0x80, losing both fields: C15_mutual_auth_refuted."),
"C19":("partial","Round trip proved for records within the parser's limit MAX_MEASUREMENT_SIZE*MAX_MEASUREMENT_BLOCKS; larger records of valid blocks are written but refused on parse: C19_large_record_refuted."),
"C23":("partial","Proved for every message whose parser cannot panic; CHALLENGE_AUTH, MEASUREMENTS, opaque data and certificate chains panic exactly on the inputs characterised by the C23_*_panics_iff theorems."),
"C48":("partial","Proved for DigestBuf, SignatureBuf, OpaqueElement, BitStream and CertificateChain; Transcript equality also compares stale bytes: C48_transcript_eq_refuted."),
"C28":("partial","The lowest offered algorithm is selected in every build with overflow checks and for every offer without an empty list. For an empty list a release build selects bit 0, which was not offered: C28_empty_offer_refuted (a debug build panics: C32_empty_offer_refuted)."),
"C31":("partial","Everything but the slot number on the wire is proved unconditionally; the slot is the requested one unless both sides announce MUT_AUTH_CAP and a slot other than 0 is asked for, when the code writes 0: C31_mutual_auth_refuted."),
"C32":("partial","Every panic has one of the listed causes (C32_panic_causes), and none occurs when every request is longer than the header and every NEGOTIATE_ALGORITHMS offers, as its lowest choices, algorithms this build can use. An attacker can trigger panics otherwise: C32_empty_offer_refuted, C32_sha3_refuted, C32_rsa_refuted. C54_panics_iff says exactly which requests panic in every reachable state."),
"C40":("partial","The property as stated is false: parsers accept trailing bytes, which go into the transcript, so an attacker on the transport can make the two sides disagree on capabilities and algorithms although the transcripts are equal and the signature verifies: C40_refuted. C40_agreement_partial proves it when no message carries trailing bytes; requiring that of one side only is not enough: C40_requester_exact_refuted, C40_responder_exact_refuted."),
"C42":("partial","Proved: slot 0 is requested, one CERTIFICATE message is accepted, and its slot and chain are the ones used in CHALLENGE and in the authentication. Not true of the code: that this slot is the requested one, or that the announced digest matches the chain: C42_refuted. Both hold when nobody can forge and no message has trailing bytes (C42_unforged_partial)."),
"C47":("partial","next_request never panics in a session, and C47_panic_iff_partial gives exactly the responses on which handle_msg panics: all in the challenge step, in every build accepted by build.rs with 64 byte digests. The property itself is false: C47_refuted_opaque_elements, C47_refuted_opaque_size, C47_refuted_zero_signature, C47_refuted_bad_tag, C47_refuted_slot_8, C47_refuted_small_digests. C59_panics_iff gives the exact condition in every reachable state and build."),
"C61":("partial","Proved for the requester. For the responder proved when no slot is filled (C61_responder_partial); with a filled slot GET_DIGESTS reaches the dummy hash and panics although no capability was announced: C61_responder_refuted."),
"C63":("partial","False as stated: a peer (or attacker) that announces no CERT_CAP or no CHAL_CAP makes the requester complete without any authentication (C63_refuted), and begin_session is not guarded by the state at all (C63_begin_session_refuted). Proved: every completion is either authenticated or follows a CAPABILITIES message without one of the two flags."),
"C65":("partial","False as stated: handle_msg does not remember whether a request was sent. Recorded messages, with the recorded CHALLENGE appended to CERTIFICATE as trailing bytes, authenticate to a requester that never sent a CHALLENGE (C65_replay_refuted, no forgery and no collision needed), and an unsolicited CAPABILITIES panics (C65_unsolicited_panic_refuted). Proved: every accepted response answers the last request sent or comes with no request outstanding (never CAPABILITIES); and a requester that did send a CHALLENGE with a nonce unknown to all responders accepts nothing (C65_fresh_partial)."),
"C68":("partial","False as stated: a requester that selects version 1.0 goes on with 1.1 headers (C68_version_1_0_refuted), and the responder's ERROR messages carry 1.2 although VERSION lists 1.0 and 1.1 (C68_error_refuted). Proved: exactly which first byte every message has, and that it is the negotiated one whenever 1.1 was selected."),
"C70":("partial","Proved for the requester (C70_requester_partial, C70_vca_only_partial). False of the responder, which answers GET_DIGESTS, GET_CERTIFICATE and CHALLENGE although it announced no capability: C70_responder_refuted. A configuration with PSK_CAP is refused by build.rs (C70_no_psk), so that part never applies."),
"C77":("partial","False as stated: the responder ignores the requested type and always sends a summary of zeros as long as a digest, also when none was requested (C77_summary_refuted; C77_type_ignored_partial and C77_summary_is_zeros_partial say exactly what it sends), and the requester, which always requests none, refuses answers without one (C77_no_summary_refused)."),
"C78":("partial","False as stated: GET_CAPABILITIES, NEGOTIATE_ALGORITHMS and GET_CERTIFICATE sent again are refused and end the session (C78_repeat_refused, witness C78_repeat_refuted). Proved: GET_VERSION and GET_DIGESTS get the same answer again, CHALLENGE a new one with a new nonce; an accepted response is never accepted again (C78_replay_refused)."),
"C87":("partial","False when SPDM_CONFIG names a file other than spdm-config.toml, as README.adoc tells users to do: build.rs does not tell cargo to watch that file, so later edits of it, even ones it would refuse, are not compiled in (C87_stale, C87_edit_ignored_refuted). Proved for the default file and for the first build, and C87_uses says exactly what a build uses in every history."),
 "C88":("partial","False as stated: the requester does not look at the number of bytes remaining nor at the root hash in the chain (C88_requester_refuted; trust never depends on that hash: C88_root_hash_ignored), and the responder ignores offset and length and sends the whole chain (C88_responder_refuted). Proved: without forgeries and trailing bytes the chain authenticated with is slot 0 of the responder that signed, received whole, with the digest that was announced for it."),
 "C89":("partial","False as stated: VERSION with more than two entries is refused (C89_too_many_refused), even if it lists 1.0 and 1.1 (C89_third_version_refuted). Proved: a list with a common version is accepted exactly when it has at most two entries; the version is then the highest common one (C34)."),
 "C90":("partial","True of hashes (C90_hash). False of signatures: the responder selects the lowest offered algorithm without looking at its own configuration (C90_signature_refuted) and then panics on CHALLENGE (C90_then_panics_refuted). Proved: it selects a configured algorithm exactly when P-256 is offered, nothing lower is, and the build has signature algorithms; with a requester of this implementation always."),
 "C91":("partial","False as stated: the requester always asks for slot 0, whatever the slot mask of DIGESTS says; with the chain in slot 3 only, DIGESTS announces it, an empty chain is sent and accepted, and the CHALLENGE is refused (C91_other_slot_refuted). Proved: true if slot 0 holds the chain (C39_honest_run), and only then: after an authenticated faithful run slot 0 of the responder holds the chain the requester trusts (C91_slot_zero_partial)."),
 "C94":("partial","False as stated: no parser refuses trailing bytes and all of a message is logged, so the same log can be split in two ways; if max_element_data_size is 256 (build.rs accepts it), two requesters with different nonces both authenticate from one answered CHALLENGE, the second requester's CHALLENGE hidden in opaque data of the first one's CHALLENGE_AUTH, the first one's hidden behind the second one's CERTIFICATE (C94_one_session_refuted). Proved: true when the messages are exactly framed, unless one of the two requesters' logs collides with the responder's (C94_one_session_partial)."),
}
