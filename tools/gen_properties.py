#!/usr/bin/env python3
"""Regenerates /verif/properties.jsonl.  One row per property."""
import json
P=[]
def p(title, statement, quantifier, why, anchors):
    P.append(dict(id="C%02d"%(len(P)+1), title=title, statement=statement,
                  quantifier=quantifier, why_tests_cant=why, anchors=anchors))

p("Writer appends exactly the bytes it is given",
  "Whatever sequence of put / put_reserved / put_u16 / put_u24 / put_u32 / extend calls is made on a Writer, the buffer keeps its length, everything before the starting offset and everything at or after the final offset is unchanged, the bytes in between are the little-endian encodings of the arguments in call order, each successful call returns the new offset, and a call fails with BufferFull exactly when its bytes do not fit.",
  "every buffer, every starting offset and every finite sequence of Writer calls",
  "unbounded sequences of calls and buffer sizes; off-by-one errors only show at particular fill levels",
  ["src/msgs/encoding.rs: Writer::{put,put_reserved,put_u16,put_u24,put_u32,extend}"])
p("Reader::get_bits reads the LSB-first bit stream",
  "For a Reader at any bit position of any buffer, get_bits(n) with 1<=n<=7 returns the number formed by the next n bits of the buffer read as one LSB-first bit stream and advances the position by n bits; if fewer than n bits remain it returns BufferEmpty and leaves the position unchanged; n>7 is always rejected (TooManyBits, or BufferEmpty when no byte is left) and leaves the position unchanged.",
  "every buffer, every bit position, every width",
  "8 alignments x 7 widths x all byte pairs x boundary positions; unit tests sample two buffers",
  ["src/msgs/encoding.rs: Reader::get_bits, Reader::get_bit"])
p("Reader multi-byte reads are little-endian, bounds checked and aligned-only",
  "get_byte, get_u16, get_u24, get_u32, get_slice return exactly the next 1/2/3/4/size bytes (little-endian for integers) and advance by that many bytes; on an unaligned reader they fail with Unaligned, on a reader with too little data they fail with BufferEmpty, and they never read outside the buffer. skip_reserved accepts exactly runs of zero bytes. Both skip calls refuse an unaligned reader, stop where the data ends, and skip_reserved stops after the first byte that is not zero.",
  "every buffer, every position, every requested size",
  "all buffer contents and lengths",
  ["src/msgs/encoding.rs: Reader::{get_byte,get_u16,get_u24,get_u32,get_slice,skip_reserved,skip_ignored}"])
p("Integers written are read back unchanged",
  "For every u8/u16/u32 value, and every usize below 2^24 for u24, writing it with the Writer and reading it back with the corresponding Reader method returns the same value; put_u24 of a larger value keeps only its low 24 bits.",
  "every integer value",
  "2^32 values; the only existing test uses 0x1de",
  ["src/msgs/encoding.rs: put_u16/get_u16, put_u24/get_u24, put_u32/get_u32"])
p("Reader cursor safety under any call sequence",
  "Starting from Reader::new on any buffer, after any sequence of Reader calls the cursor is within the buffer, remaining() never underflows, and no call indexes out of bounds; the only panics are get_bits(0) under overflow checks and get_slice into a destination shorter than the requested size.",
  "every buffer and every finite sequence of Reader calls with any arguments",
  "unbounded histories of mixed aligned and unaligned reads",
  ["src/msgs/encoding.rs: Reader"])
p("Transcript is a bounded append-only log",
  "After any sequence of extend and clear calls, get() is the concatenation of the slices successfully extended since the last clear, len() is its length and never exceeds TRANSCRIPT_SIZE; extend fails with BufferFull exactly when the data would not fit and then changes nothing.",
  "every capacity and every finite sequence of extend/clear calls",
  "unbounded operation histories",
  ["src/transcript.rs: Transcript::{new,extend,clear,get,len}"])
p("VERSION / GET_VERSION wire format and round trip",
  "Writing GET_VERSION or VERSION produces exactly the SPDM table layout (the unused zero cells of the two-entry array are always written after it), and parsing the written bytes gives the message back for every VERSION whose entries fit their 4-bit fields (unused entries default); a VERSION announcing more than 2 entries, with non-zero reserved bytes or truncated, is rejected.",
  "every Version value and every byte buffer",
  "all nibble combinations and all malformed buffers",
  ["src/msgs/version.rs: Version::{write_body,parse_body}, GetVersion::{write_body,parse_body}"])
p("CAPABILITIES / GET_CAPABILITIES wire format and round trip",
  "Writing produces exactly the SPDM table layout, parsing gives the message back for every ct_exponent and every set of defined flags, and parsing accepts a buffer exactly when the reserved bytes are zero and no undefined flag bit is set.",
  "every message value and every byte buffer",
  "2^40 messages and all malformed buffers",
  ["src/msgs/capabilities.rs: GetCapabilities, Capabilities, ReqFlags, RspFlags"])
p("NEGOTIATE_ALGORITHMS wire format, round trip and skipping of extended algorithms",
  "Writing produces exactly the SPDM table layout with a correct Length field; parsing the bytes gives the message back; inserting any extended asymmetric, hash or per-structure external algorithms (with the counts set accordingly and a Length field of at most the 128 SPDM allows) leaves the parsed message unchanged; undefined algorithm bits are rejected.",
  "every NegotiateAlgorithms value, every list of extended algorithms",
  "arbitrary counts of external algorithms interact with offsets; tests try one combination",
  ["src/msgs/algorithms.rs: NegotiateAlgorithms::{write_body,parse_body,msg_length}, AlgorithmRequest::{read,write}"])
p("ALGORITHMS wire format, round trip and one-selection rule",
  "Writing produces exactly the SPDM table layout with a correct Length field; parsing gives the message back when each selection has exactly one bit set; every ALGORITHMS message accepted by the parser has exactly one defined bit set in the measurement spec, measurement hash, asymmetric and hash selections and in each algorithm response.",
  "every Algorithms value and every byte buffer",
  "all bit combinations in every field of every accepted buffer",
  ["src/msgs/algorithms.rs: Algorithms::{write_body,parse_body,ensure_only_one_bit_set}"])
p("DIGESTS wire format and round trip",
  "DIGESTS carries the slot mask followed by the digests of exactly the slots set in the mask, in increasing slot order; parsing assigns each digest to its slot number and None to all others, so parse(write(d)) equals d whenever d has a digest exactly in the masked slots.",
  "every NUM_SLOTS accepted by the build, every slot mask, every digest size and content",
  "256 masks x slot counts x digest sizes",
  ["src/msgs/digest.rs: Digests::{write_digests,read_digests,parse_body}"])
p("CERTIFICATE / GET_CERTIFICATE wire format and round trip",
  "Writing produces the SPDM layout (slot, reserved, portion length, remainder length, portion bytes); parsing gives the same slot, lengths and portion back; a portion length above MAX_CERT_CHAIN_SIZE is rejected with TooLarge and one longer than the available data with BufferEmpty.",
  "every message value, every MAX_CERT_CHAIN_SIZE, every byte buffer",
  "all lengths including the boundary ones",
  ["src/msgs/certificates.rs: GetCertificate, Certificate"])
p("Certificate chain serialization round trip",
  "A chain built with CertificateChain::new and append_intermediate_cert from DER-framed certificates serializes to length, 2 reserved zero bytes, root hash, intermediates in order, leaf; parsing that buffer with the right digest size returns an equal chain. Chains over 65535 bytes or larger than the buffer are rejected, as are more than MAX_CERT_CHAIN_DEPTH intermediates.",
  "every root hash, every number (up to the depth) and content of certificates in short, 0x81 and 0x82 DER length forms",
  "unbounded chain contents, lengths crossing 127/128, 255/256, 65535",
  ["src/msgs/certificates.rs: CertificateChain::{new,append_intermediate_cert,write,parse,read_cert_size}"])
p("CHALLENGE wire format and round trip",
  "CHALLENGE is slot, measurement hash type, nonce; parse(write(c)) = c for every slot, type and nonce; the parser accepts only hash types 0, 1 and 0xFF.",
  "every Challenge value and every byte buffer",
  "2^256 nonces and all malformed buffers",
  ["src/msgs/challenge.rs: Challenge, MeasurementHashType"])
p("CHALLENGE_AUTH wire format and round trip",
  "For every valid ChallengeAuth message (slot below NUM_SLOTS, opaque data within bounds), parse(write(m)) = m for the negotiated digest and signature sizes, including slot number and mutual-authentication bit.",
  "every ChallengeAuth value, every digest/signature size",
  "all slots x mutual-auth flag x opaque data shapes; the only test uses slot 0 without mutual auth",
  ["src/msgs/challenge.rs: ChallengeAuth::{write_body,parse_body,validate,new}"])
p("ERROR wire format and round trip",
  "Every Error message is encoded with its SPDM error code and extended data, and parse(write(e)) = e.",
  "every Error value (all variants and payloads)",
  "19 variants with u8/u32/vendor payloads",
  ["src/msgs/error.rs: Error::{write_body,parse_body}"])
p("Opaque data round trip, alignment and size accounting",
  "For every OpaqueData value whose vendor ids match their registries, write emits exactly serialized_size() bytes, each element padded with zeros to a multiple of 4, and read returns an equal value; a vendor id whose length does not match its registry is refused on both sides.",
  "every number of elements, registry, vendor id and data length",
  "all data lengths modulo 4 and all registries",
  ["src/msgs/common.rs: OpaqueData, OpaqueElement, VendorId, VendorRegistryId"])
p("GET_MEASUREMENTS wire format and round trip",
  "parse(write(m)) = m for every GetMeasurements with a valid index (with slot 0 and no nonce when no signature is requested: they are on the wire exactly when one is); out-of-range ImplementationDefined/Reserved indexes are refused on write; reserved attribute bits and slots >= NUM_SLOTS are refused on parse.",
  "every GetMeasurements value and every byte buffer",
  "256 attribute bytes x 256 indexes x nonces",
  ["src/msgs/measurements.rs: GetMeasurements, MeasurementIndex, RequestAttributes"])
p("MEASUREMENTS wire format and round trip",
  "parse(write(m)) = m for every Measurements message with at most MAX_MEASUREMENT_BLOCKS present blocks, values within their size limits, DMTF spec and value representation consistent with the value, for the matching signature option and size; record and block size fields equal the bytes that follow, and a mismatch is rejected.",
  "every Measurements value, every number of blocks, every value size",
  "arbitrary block lists with 24-bit sizes",
  ["src/msgs/measurements.rs: Measurements, MeasurementBlocks, MeasurementBlock, DmtfMeasurement"])
p("Header dispatch",
  "parse_header of a message type returns Ok(true) exactly on buffers whose code byte is that type's code and whose version byte is that type's version, an error exactly when the code matches but the version does not, Ok(false) otherwise; a written message is recognised by its own type and by no other of the message types.",
  "every buffer longer than 2 bytes and every pair of message types",
  "65536 headers x 15 message types",
  ["src/msgs/mod.rs: Msg::parse_header, Msg::write_header, SPDM_VERSION/SPDM_CODE constants"])
p("Serialized size and buffer bounds of every message",
  "For every message m and buffer buf: write succeeds exactly when the encoding fits, returns its exact length, leaves every byte after that length untouched, and otherwise fails with BufferFull; it never writes outside buf.",
  "every message value and every buffer length",
  "every boundary between too small and large enough for every message",
  ["src/msgs/mod.rs: Msg::write and all write_body implementations"])
p("Request parsers never panic",
  "For every byte string, parsing the body of GET_VERSION, GET_CAPABILITIES, NEGOTIATE_ALGORITHMS, GET_DIGESTS, GET_CERTIFICATE, CHALLENGE or GET_MEASUREMENTS returns a value or an error; it never panics, whatever the lengths and counts in it claim.",
  "every byte string of any length",
  "attacker controlled input; infinite input space",
  ["src/msgs/*.rs: parse_body of the request messages"])
p("Response parsers never panic",
  "For every byte string, parsing VERSION, CAPABILITIES, ALGORITHMS, DIGESTS, CERTIFICATE, CHALLENGE_AUTH, MEASUREMENTS, ERROR or a certificate chain returns a value or an error; it never panics.",
  "every byte string of any length",
  "attacker controlled input; infinite input space",
  ["src/msgs/*.rs: parse_body of the response messages", "src/msgs/common.rs: OpaqueData::read", "src/msgs/certificates.rs: CertificateChain::parse"])
p("GET_VERSION restarts the responder from any live state",
  "In every non-error state, a well-formed GET_VERSION makes Responder::handle_msg answer VERSION, move to the Capabilities state with all earlier negotiated values forgotten, and leaves a transcript consisting of exactly that request and response.",
  "every responder state, transcript content, slot configuration and request",
  "all reachable states and histories",
  ["src/responder.rs: reset_on_get_version, Responder::handle_msg", "src/responder/version.rs"])
p("Responder accepts messages only in protocol order",
  "For every sequence of requests, each successful Responder::handle_msg moves along VERSION, CAPABILITIES, ALGORITHMS, ID_AUTH, CHALLENGE (or restarts on GET_VERSION): capabilities are answered only after a version exchange, algorithms only after capabilities, digests and certificates only after algorithms, challenges only after a certificate was served, all since the last GET_VERSION; any other request code is rejected with UnexpectedMsgCode or ParseHeader.",
  "every finite sequence of arbitrary requests",
  "unbounded message histories",
  ["src/responder.rs: AllStates::handle, expect", "src/responder/*.rs: State::handle_msg"])
p("Responder errors produce an ERROR response and terminate",
  "Whenever Responder::handle_msg returns an error, the returned bytes are the encoding of the SPDM ERROR message assigned to that error (or empty if the buffer cannot hold it) and the state is Error; whenever it succeeds the returned bytes are the response message. The response slice always lies within the caller's buffer.",
  "every state, request, response buffer and slot configuration",
  "all error paths of all states",
  ["src/responder.rs: AllStates::handle", "src/responder/error.rs: From<&ResponderError> for msgs::Error"])
p("Responder transcript is the exact message log",
  "After any sequence of successfully handled requests the responder transcript is the concatenation, in order, of every request and response since and including the last GET_VERSION, with the signature removed from CHALLENGE_AUTH responses.",
  "every finite sequence of requests and responses",
  "unbounded histories",
  ["src/responder/*.rs: transcript.extend calls", "src/transcript.rs"])
p("Responder selects one algorithm the requester offered",
  "For every NEGOTIATE_ALGORITHMS request, the ALGORITHMS response selects, for the hash, signature and each listed algorithm structure, exactly one algorithm, it is among those offered for that entry (the lowest-numbered one), and answers entries one for one in order.",
  "every NegotiateAlgorithms request",
  "all subsets of offered algorithms, including empty ones",
  ["src/responder/algorithms.rs: choose_algorithms"])
p("DIGESTS response describes exactly the filled slots",
  "On GET_DIGESTS the responder answers with a mask whose bit i is set exactly when slot i holds a certificate chain, and with, for each such slot in order, the digest under the negotiated hash of the serialized chain of that slot; it stays ready to serve certificates.",
  "every slot configuration and negotiated hash",
  "2^NUM_SLOTS configurations with arbitrary chains",
  ["src/responder/id_auth.rs: handle_get_digests, hash_cert_chains, create_slot_mask"])
p("CERTIFICATE response carries the requested slot's chain",
  "On GET_CERTIFICATE for slot s the responder answers with slot s and the whole serialized chain stored in slot s with nothing remaining, an empty portion if the slot is empty, and InvalidSlot if s is not below NUM_SLOTS.",
  "every slot configuration, requested slot, offset and length",
  "all slots and chain sizes",
  ["src/responder/id_auth.rs: handle_get_certificate"])
p("CHALLENGE_AUTH is signed over the whole transcript by the requested slot's key",
  "On CHALLENGE for a filled slot s the responder answers with slot s, the slot mask, the digest of slot s's chain, a fresh nonce and a signature produced by slot s's signer over the negotiated hash of the transcript since GET_VERSION including this request and this response without its signature; for an empty or out-of-range slot it fails with InvalidSlot and signs nothing.",
  "every transcript, slot configuration, nonce and signer",
  "all histories leading to the challenge",
  ["src/responder/challenge.rs: State::handle_msg"])
p("Responder never panics on attacker input",
  "No sequence of requests (each longer than the 2 byte header) makes Responder::handle_msg panic before it has returned an error.",
  "every finite sequence of byte strings, every slot configuration",
  "attacker controlled inputs, unbounded histories",
  ["src/responder.rs: Responder::handle_msg", "src/responder/algorithms.rs: choose_algorithms", "src/msgs/algorithms.rs: get_signature_size, get_digest_size"])
p("Responder::reset returns to the initial state",
  "After reset(), from any state and history, the responder behaves exactly like a newly created one with the same slots: same outputs, errors, states and transcript contents for every later request sequence.",
  "every state reached by any history, every later request sequence",
  "observational equivalence over unbounded futures",
  ["src/responder.rs: Responder::{new,reset}", "src/transcript.rs: clear"])
p("Requester picks the highest common version",
  "On VERSION the requester proceeds with the greatest version among those it supports that the responder listed, independently of order, and fails with NoSupportedVersions exactly when there is none.",
  "every VERSION message",
  "all entry orders and values",
  ["src/requester/version.rs: find_max_matching_version"])
p("Requester accepts only algorithms it requested",
  "The requester leaves algorithm negotiation successfully only if the measurement spec equals the requested one and each selected hash, measurement hash, signature algorithm and each algorithm response is a single algorithm contained in its own request.",
  "every ALGORITHMS response",
  "all response bit patterns",
  ["src/requester/algorithms.rs: ensure_valid_algorithms_selected, ensure_algorithm_response_is_valid"])
p("Requester completes only after the exchanges both sides' capabilities call for",
  "RequesterInit::handle_msg returns Ok(true) only (a) after algorithms when not both sides announced CERT_CAP, (b) after the certificate when not both announced CHAL_CAP, (c) otherwise only after a successfully verified CHALLENGE_AUTH; states advance only in protocol order.",
  "every sequence of next_request / handle_msg calls with arbitrary responses",
  "unbounded histories and all capability combinations",
  ["src/requester.rs: AllStates::handle_msg, RequesterInit::handle_msg"])
p("Requester transcript is the exact message log",
  "After any sequence of successful next_request and handle_msg calls the requester transcript is the concatenation of every request written and every response accepted since and including the last GET_VERSION, without the signature of CHALLENGE_AUTH.",
  "every finite sequence of calls",
  "unbounded histories",
  ["src/requester/*.rs: transcript.extend calls"])
p("Requester authentication soundness",
  "If the requester completes through the challenge state then the certificate chain it received verifies up to the configured root certificate, the CHALLENGE_AUTH names the slot of the received certificate and its digest, and the signature verifies under that chain's leaf certificate over the negotiated hash of the complete transcript since GET_VERSION, which contains the requester's own nonce.",
  "every sequence of responses, every root certificate and verification provider",
  "adversarial histories",
  ["src/requester/challenge.rs: State::handle_msg, verify_cert_chain_and_signature"])
p("An honest requester and responder always complete and agree",
  "Whenever requester and responder exchange messages faithfully, with buffers and transcript large enough, a well-formed chain in slot 0 that verifies to the requester's root, and a correct signature scheme, the protocol completes without error, both have identical transcripts up to the challenge, and they agree on capabilities and selected algorithms.",
  "every slot configuration, chain contents, nonces, capability configuration and buffer size above the bound",
  "the existing e2e test runs one configuration",
  ["src/requester.rs", "src/responder.rs", "tests/protocol.rs: successful_e2e"])
p("Completed authentication implies agreement on the negotiated parameters",
  "If the requester completes and the verified signature was produced by the honest responder, then (unless their two message logs are a hash collision) requester and responder saw the same sequence of messages, hence agree on versions, capabilities and algorithms, even if the transport is controlled by an attacker.",
  "every attacker-chosen interleaving and modification of messages",
  "man-in-the-middle histories",
  ["src/requester/*.rs", "src/responder/*.rs", "src/transcript.rs"])
p("Requester API misuse is reported, not acted on",
  "Once initialization is complete next_request returns InitializationComplete and changes nothing; after any handle_msg error the requester is in the Error state; next_request never changes the protocol state it is in.",
  "every state and call sequence",
  "unbounded histories",
  ["src/requester.rs: RequesterInit::{next_request,handle_msg}"])
p("The certificate used for authentication is the one requested and announced",
  "The certificate the requester authenticates with is for the slot it asked for (slot 0) and its digest equals the digest announced for that slot in DIGESTS.",
  "every sequence of responses",
  "adversarial responders",
  ["src/requester/id_auth.rs: handle_certificate, handle_digests", "src/requester/challenge.rs"])
p("Raw to DER signature conversion",
  "bin_to_der turns a fixed-size r||s signature into the canonical DER SEQUENCE of two positive INTEGERs with the same values, of at most max_encoded_size() bytes, for every signature of up to MAX_SIGNATURE_SIZE bytes whose halves are non-zero; it panics if a half is zero. In a buffer of any other size it writes the same bytes if they fit and panics otherwise.",
  "every signature value",
  "2^512 signatures; leading zeros and high bits change the length",
  ["src/crypto/pki.rs: bin_to_der, get_start_and_length, integer_to_der, write_der_length, max_encoded_size"])
p("A configuration accepted by the build never fails at run time",
  "For every configuration accepted by build.rs: NUM_SLOTS is between 1 and 8, every configured capability string parses as both a requester and a responder flag and every signing algorithm string parses, so building GET_CAPABILITIES, CAPABILITIES and NEGOTIATE_ALGORITHMS from configuration never fails; and with no crypto provider no capability is announced. A configuration is refused exactly if a signing algorithm is unknown, the number of slots is not 1 to 8, the chain buffer exceeds 65536 bytes, the depth exceeds 24, capabilities are configured without a crypto provider or a capability is unknown, with the error for the first of these in this order, naming the first offending string.",
  "every configuration file contents",
  "unbounded lists of strings and numbers",
  ["build.rs: CertChainConfig::validate, max_signature_size, validate_capabilities, gen_config", "src/requester/capabilities.rs", "src/responder/capabilities.rs", "src/requester/algorithms.rs"])
p("Slot mask reflects slot occupancy",
  "create_slot_mask sets bit i exactly when slot i is Some, for every NUM_SLOTS the build accepts.",
  "every NUM_SLOTS and slot occupancy",
  "2^8 occupancies x 8 sizes",
  ["src/responder/id_auth.rs: create_slot_mask"])
p("Parsing depends only on the bytes the message occupies",
  "If a message body parser succeeds on a buffer, it returns the same message when arbitrary bytes are appended to the buffer.",
  "every parser, every accepted buffer and every suffix",
  "infinite input space",
  ["src/msgs/*.rs: parse_body"])
p("Requester never panics on attacker input",
  "When next_request and handle_msg are called alternately as documented, no sequence of responses (each longer than the 2 byte header) makes the requester panic before it has returned an error or completed.",
  "every finite sequence of byte strings",
  "attacker controlled inputs",
  ["src/requester.rs", "src/requester/challenge.rs", "src/msgs/challenge.rs", "src/msgs/certificates.rs"])
p("Fixed-capacity buffers compare by content",
  "DigestBuf, SignatureBuf, OpaqueElement, BitStream and CertificateChain equality is exactly equality of their visible contents, whatever is in the unused part of their storage; two Transcripts are equal exactly when their contents are.",
  "every pair of values",
  "stale bytes depend on history",
  ["src/msgs/common.rs: PartialEq impls", "src/msgs/certificates.rs: PartialEq for CertificateChain", "src/transcript.rs: derive(PartialEq)"])
p("Code tables are bijective",
  "Measurement indexes, value types, vendor registries, measurement hash types and content-changed codes convert to bytes and back without loss, every byte outside the tables is rejected, and distinct flag or algorithm names denote distinct defined bits, namely those which SPDM 1.1 assigns to them.",
  "every byte and every table entry",
  "exhaustive over 256 values per table",
  ["src/msgs/measurements.rs", "src/msgs/common.rs: VendorRegistryId", "src/msgs/challenge.rs: MeasurementHashType", "src/msgs/capabilities.rs: FromStr", "src/msgs/algorithms.rs: FromStr"])
p("Every repeated challenge is bound to the full history",
  "For any number of CHALLENGE requests handled in a row, the k-th signature covers every message since GET_VERSION including all earlier challenges and responses (without signatures), so no two challenges in a session sign the same transcript.",
  "every number of repeated challenges",
  "unbounded histories",
  ["src/responder/challenge.rs", "src/transcript.rs"])

p("The responder answers exactly the in-order, well-formed requests it has room for",
  "After any history of calls, handle_msg succeeds on a request with a given answer, next state and transcript if and only if the request is one the current state has a use for, is well formed, its algorithms and slot are usable, the answer is the one the protocol prescribes and both the response buffer and the transcript have room; nothing else is ever answered with success and nothing of this is ever refused.",
  "every history, every request, every response buffer and all randomness",
  "an equivalence over all byte strings and histories",
  ["src/responder.rs: handle_msg", "src/responder/*.rs"])
p("The requester sends and accepts exactly what the protocol prescribes",
  "After any session, next_request succeeds with given bytes, next state and transcript if and only if these are what the protocol prescribes in this state and there is room; handle_msg accepts a response if and only if the protocol does (format, negotiated values, certificate chain and signature) and the transcript has room, and reports completion exactly when the session is complete.",
  "every session, every response and all randomness",
  "an equivalence over all byte strings and histories",
  ["src/requester.rs: next_request, handle_msg", "src/requester/*.rs"])

p("Nothing depends on what the caller's output buffer contained before",
  "Two calls of the responder's handle_msg (or the requester's next_request) that differ only in the initial contents of the output buffer, of the same length, give the same result, the same reply bytes and the same next state and transcript, and leave each buffer unchanged beyond what was written; by induction the same holds for whole histories of calls. In particular no stale buffer byte ever enters a transcript, a signature or a reply.",
  "every pair of buffers of equal length, every state, request, history and all randomness",
  "a two-run (relational) property over all buffer contents and histories",
  ["src/responder.rs: handle_msg", "src/requester.rs: next_request", "src/msgs/encoding.rs: Writer", "src/msgs/*.rs: write_body"])

p("The outcome of every responder call is determined by an ordered list of checks",
  "For a responder with any history and any request, response buffer and randomness, handle_msg answers exactly when all the listed checks hold (header, format, room in buffer and transcript, slot, chain size, usable hash and signature algorithm, signer); otherwise the first failing check determines exactly which error is returned (for a malformed request: the error its own list of checks names, see C73), or that the call panics. In particular this characterises exactly which calls panic, and after a panic every further call panics until reset.",
  "every history, every request byte string, every buffer size, all randomness and signers",
  "classifies all byte strings in all states into answered / refused (and why) / crashed",
  ["src/responder.rs: handle_msg", "src/responder/*.rs: handle_msg", "src/responder/error.rs"])

p("Message constructors accept exactly the valid arguments",
  "GetMeasurements::new and the two Measurements constructors return a value exactly for slot numbers below NUM_SLOTS and otherwise panic; the value holds the arguments (and a nonce exactly when a signature is requested), and a constructed GET_MEASUREMENTS with an index in range is written and read back unchanged. ChallengeAuth::new returns exactly when both digests and the signature fit their buffers; BitStream::new exactly when the data fits.",
  "every argument value",
  "all slot numbers, sizes and contents",
  ["src/msgs/measurements.rs: GetMeasurements::new, Measurements::new_with_*, BitStream", "src/msgs/challenge.rs: ChallengeAuth::new"])
p("Written messages are unambiguous",
  "If the bytes written for one message begin with (or equal) the bytes written for another message of any type, under the same negotiated sizes, then the two messages are equal and so are their encodings: no written message can be taken for a different one, nor for the beginning of a different one.",
  "every pair of representable messages of the fifteen types and every pair of buffers",
  "a two-message property over all values",
  ["src/msgs/*.rs: write_body, parse_body"])
p("Re-encoding an accepted message reproduces it byte for byte",
  "For GET_VERSION, GET_CAPABILITIES, CAPABILITIES, GET_DIGESTS, DIGESTS, GET_CERTIFICATE, CERTIFICATE, CHALLENGE and GET_MEASUREMENTS: if a byte string is accepted and contains no ignored trailing bytes, writing the parsed value gives exactly that byte string. These are the only message types with that property.",
  "every byte string, every buffer",
  "all byte strings; the converse direction of the round trip",
  ["src/msgs/*.rs: write_body, parse_body"])
p("When re-encoding an accepted message preserves its value",
  "For every message type: if a byte string is accepted and the parsed value is written again, parsing the result gives the same value, except exactly for CHALLENGE_AUTH that asks for mutual authentication, unsigned MEASUREMENTS that name a slot, and MEASUREMENTS with more than 1024 bytes of opaque data. Every accepted value can be written in a large enough buffer, except exactly CHALLENGE_AUTH naming slot NUM_SLOTS or with more than 1024 bytes of opaque data, and MEASUREMENTS with 65536 or more bytes of opaque data, which no buffer can hold.",
  "every byte string, every buffer, all negotiated sizes",
  "all byte strings; normalisation is idempotent",
  ["src/msgs/*.rs: write_body, parse_body"])

p("The outcome of every requester call is determined by an ordered list of checks",
  "For a requester with any history and any bytes received, handle_msg succeeds exactly when all the listed checks hold (length, awaited message code, version byte, format, common version, selection within the offer, slot, mask, certificate-chain digest, transcript room, certificate chain, trust, signature); otherwise the first failing check determines exactly which error is returned, or that the call panics. Likewise for next_request. After a panic every later call panics.",
  "every history, every response byte string, every buffer size and all cryptographic oracles",
  "classifies all byte strings in all states into accepted / refused (and why) / crashed",
  ["src/requester.rs: handle_msg, next_request", "src/requester/*.rs: handle_msg, write_msg"])

p("Certificate slots are isolated from one another, and signing keys serve CHALLENGE only",
  "Take two responders with the same slots filled, and any history of calls in which no GET_DIGESTS is sent and every GET_CERTIFICATE and CHALLENGE names slot i. If slot i holds the same chain and key in both, all replies, errors, panics, buffers and the remembered state and transcript are the same, whatever the other slots hold. In a history without CHALLENGE the keys make no difference; in one without GET_DIGESTS, GET_CERTIFICATE and CHALLENGE the slots make no difference at all. In DIGESTS, the part for slot i is the digest of slot i's chain.",
  "every pair of slot arrays, every history of calls, all randomness",
  "a two-run (relational) property over all histories and slot contents",
  ["src/responder.rs: handle_msg", "src/responder/id_auth.rs: handle_get_digests, handle_get_certificate", "src/responder/challenge.rs: handle_msg", "src/crypto/slot.rs: FilledSlot"])

p("A build without a crypto provider never reaches the dummy cryptography",
  "As no_crypto_defaults.rs documents: in a build that build.rs accepts without a crypto provider, no history of calls brings the requester into a state in which it would hash, verify or check a certificate, and used as documented it never panics; and the responder never consults the provider, so its behaviour does not depend on it.",
  "every such build, every history of calls and every message",
  "unreachability over all histories",
  ["src/crypto/no_crypto_defaults.rs", "build.rs: validate_capabilities", "src/requester.rs: handle_msg", "src/responder/id_auth.rs: handle_get_digests"])

p("Incremental hashing equals one-shot hashing, and the crypto wrappers accept exactly the supported algorithms",
  "ProvidedDigests can be created exactly for SHA-256, SHA-384 and SHA-512; however the data is cut into update calls, finalize returns the same as digest of the whole data, which panics exactly for an unsupported algorithm or a digest larger than a DigestBuf. new_signer returns a signer exactly for keys ring accepts for P-256 or P-384 and panics for any other algorithm, never for one a build accepts. Signing returns ring's signature of the message or an error; what a P-256 key signs, verify_signature accepts under the certificate of that key. verify_signature checks a P-384 signature only if its DER form fits the 72 bytes sized for P-256, and panics on the others, among them all whose two numbers are 2^272 or more.",
  "every algorithm, every data and every way of cutting it, every key",
  "all chunkings of all data",
  ["src/crypto/digest.rs: Digests, impl_digests!", "src/crypto/ring/digest.rs: ProvidedDigests", "src/crypto/ring/signing.rs: new_signer"])

p("A requester configured to authenticate never completes with an unauthenticated peer",
  "When CERT_CAP and CHAL_CAP are configured, handle_msg returns Ok(true) (initialization complete) only after a CHALLENGE_AUTH was accepted whose certificate chain verifies up to the root certificate and whose signature by the chain's leaf covers the session's transcript; and a RequesterSession is obtained only from a requester that completed in this way.",
  "every history of calls and every peer",
  "quantifies over all conversations, including those of an active attacker who downgrades the negotiation",
  ["src/requester.rs: handle_msg, begin_session, AllStates::handle_msg"])

p("An accepted authentication was produced by a holder of the certified key, for this very session",
  "Assume that the root certifies only keys held by responders running this code and that signatures cannot be forged. Then whenever a requester accepts a CHALLENGE_AUTH, there is a responder with a certified key that answered a CHALLENGE by signing exactly the messages this requester saw since its GET_VERSION, the CHALLENGE with the requester's fresh nonce among them, or else that responder signed a different log with the same digest. If no message carries trailing bytes, the responder moreover did the same exchanges, and both agree on capabilities and algorithms.",
  "every requester history, every peer, every set of responders with any histories, every attacker on the transport",
  "a security property over all conversations of all parties, under a cryptographic assumption",
  ["src/requester/challenge.rs: handle_msg, verify_signature", "src/responder/challenge.rs: handle_msg", "src/requester.rs: handle_msg", "src/responder.rs: handle_msg"])

p("Responses are accepted only as answers to requests, and an old authentication is never accepted",
  "handle_msg accepts a response only when the last thing the requester sent is the request this response answers; in particular a CHALLENGE_AUTH is accepted only after a CHALLENGE with a fresh nonce was sent, so that recorded responses of an earlier session are never accepted as an authentication (unless signatures can be forged, or the log of this session collides with one that was signed). A response which was not asked for is refused with an error.",
  "every history of calls and every peer, including one that replays recorded messages",
  "quantifies over all conversations and all replayed recordings",
  ["src/requester.rs: next_request, handle_msg", "src/requester/challenge.rs: handle_msg, write_challenge_msg", "src/requester/capabilities.rs: handle_msg"])

p("A responder stays available whatever happened to it before",
  "After any history of calls with any messages, unless the last call left the responder in its error state, an honest requester talking to it over a faithful transport completes in the number of exchanges the capabilities require and both agree; so also after a call of reset from whatever state; and this any number of times in a row. A responder in the error state completes with nobody until reset.",
  "every history of calls and messages, every number of consecutive sessions, all honest pairs of builds",
  "liveness after arbitrary histories and for unboundedly many sessions",
  ["src/responder.rs: handle_msg, reset, reset_on_get_version", "src/requester.rs: next_request, handle_msg"])

p("The generated configuration code says exactly what the configuration file says",
  "When build.rs accepts a configuration, the code in the generated config.rs is exactly one definition of each of the twelve constants, each with the value configured under its own name (numbers as decimal literals, lists as arrays of the configured names in order); when it refuses, nothing is generated. Nothing but digits and the known capability and algorithm names is copied from the configuration into code.",
  "every configuration",
  "unbounded numbers and lists; positional template substitution is a classic source of swapped values that compile",
  ["build.rs: gen_config", "config.rs.template"])

p("After version negotiation every message carries the negotiated version",
  "Once the version was negotiated, every further message a requester sends or accepts, and every message a responder accepts or sends (error responses included), carries in its first byte the version that was negotiated.",
  "every history of calls with any messages, on both sides",
  "quantifies over all conversations",
  ["src/msgs/common.rs: SPDM_VERSION, Msg::write_header", "src/requester/version.rs: handle_msg", "src/responder.rs: handle_error", "src/msgs/error.rs"])

p("Bytes added behind requests or responses in transit are detected by the authentication",
  "When a transport appends bytes to some of the requests on their way (as it does when a receive buffer larger than the request is handed to handle_msg) and to some of the responses, then the authentication can succeed only if as many bytes were added to requests as to responses (unless the two message logs collide under the negotiated hash). In particular padding of requests only, or of responses only, is always detected.",
  "every conversation in which every message may get any bytes appended",
  "quantifies over all conversations and all additions",
  ["src/requester.rs: next_request, handle_msg", "src/responder.rs: handle_msg", "README.adoc: Responder API"])

p("The announced capabilities govern which messages are exchanged",
  "Digests and certificates are exchanged only when both sides announced CERT_CAP, challenges only when both announced CHAL_CAP too; with the default configuration, which has no capability, only VERSION, CAPABILITIES and ALGORITHMS are exchanged. PSK_CAP excludes the certificate exchanges.",
  "every configuration and every history of calls with any messages, on both sides",
  "quantifies over all configurations and conversations",
  ["README.adoc", "src/requester/algorithms.rs: handle_msg", "src/requester/id_auth.rs: handle_msg", "src/responder/algorithms.rs: handle_msg", "src/responder/id_auth.rs: handle_msg"])

p("Buffers above a bound computed from the configuration always suffice, and their size is not observable",
  "With output buffers of at least max(52, 4 + MAX_DIGEST_SIZE * NUM_SLOTS, 8 + MAX_CERT_CHAIN_SIZE, 42 + 2 * MAX_DIGEST_SIZE + MAX_SIGNATURE_SIZE) bytes for responses and 48 bytes for requests, what a responder or requester answers to any history of calls, and all it does afterwards, is the same whatever the exact sizes: no call fails for lack of buffer space. Below the bound, an answer that fitted stays the same in every larger buffer. The bounds cannot be lowered.",
  "every configuration, every history of calls with any messages, all buffer sizes above the bound",
  "quantifies over all histories, configurations and sizes; a test uses one buffer size",
  ["src/responder.rs: handle_msg", "src/requester.rs: next_request", "src/msgs/encoding.rs: Writer", "src/responder/id_auth.rs", "src/responder/challenge.rs"])

p("Exactly how large the transcript buffers must be for a run to complete",
  "Two endpoints that fit together (each built from an accepted configuration, same hash, trusted chain, working signer), connected by a faithful transport and given large enough message buffers, complete the protocol if and only if the messages of the run without the signature fit TRANSCRIPT_SIZE on both sides: 138 bytes, plus with certificates 24 bytes, 32 per filled slot and the chain of slot 0, plus with a challenge 78 bytes and two nonces; and then in exactly the number of exchanges the capabilities require. 560 + MAX_CERT_CHAIN_SIZE always suffices. The rule documented in config.rs (larger than MAX_CERT_CHAIN_SIZE) does not suffice.",
  "every pair of configurations, slots, chains, capabilities, randomness and buffers",
  "an equivalence over all configurations and runs; a test shows one size to be enough",
  ["config.rs.template: TRANSCRIPT_SIZE", "src/transcript.rs: extend", "src/requester.rs: next_request, handle_msg", "src/responder.rs: handle_msg"])

p("Which error each parser reports",
  "Every message parser ends as the first failing entry of a fixed list of checks over the positions of the message says: the fields are checked in the order of the wire format, a missing byte is BufferEmpty, a nonzero reserved byte is ReservedByteNotZero, and every field has its own error, wrapped by the parsers around it; a message on which no check fails is accepted, and the only panics are those the lists name (a DER tag other than SEQUENCE, more opaque elements, element data or blocks than the storage holds). One error is misnamed: a CHALLENGE_AUTH for a slot above NUM_SLOTS is reported as too large opaque data, and its slot error is never returned.",
  "every byte string, for all fifteen messages and certificate chains, every configuration with at most 8 slots",
  "quantifies over all byte strings, including those with several faults",
  ["src/msgs/*.rs: parse_body", "src/msgs/certificates.rs: CertificateChain::parse", "src/msgs/encoding.rs: Reader, ReadError", "src/msgs/challenge.rs: ParseChallengeAuthError", "src/msgs/common.rs: OpaqueData::read"])

p("Which error each writer reports",
  "Every message writer ends as the first failing entry of a fixed list of checks over the message's fields and the size of the buffer says: the buffer has to hold each part before the checks of the next part are made, a value outside its range (slot, opaque data over 1024 bytes, vendor id of another registry's length, measurement index of the wrong kind, chain over 65535 bytes) has its own error, and the only panics are those the lists name (a count beyond the array, an empty cell, a missing nonce, a length that does not fit its field). When no check fails the writer returns the size of the message. A valid CHALLENGE_AUTH that does not fit is reported as WriteOpaqueElement(BufferFull) exactly when the buffer ends inside the opaque data, and as BufferFull otherwise.",
  "every value of all fifteen messages and of certificate chains, every buffer, every configuration with at most 8 slots",
  "quantifies over all messages and all buffer sizes, including messages with several faults",
  ["src/msgs/*.rs: write, write_body", "src/msgs/encoding.rs: Writer, BufferFullError", "src/msgs/challenge.rs: ChallengeAuth::validate", "src/msgs/common.rs: OpaqueElement::write", "src/msgs/measurements.rs: MeasurementBlocks::write"])

p("A session is finite",
  "Between two GET_VERSION requests a responder answers only so many requests as its transcript has room for: the requests and responses since GET_VERSION, without signatures, never exceed TRANSCRIPT_SIZE bytes in total, and are at most TRANSCRIPT_SIZE / 7 exchanges, whatever is asked and however often. A requester sends at most TRANSCRIPT_SIZE / 4 further requests after a GET_VERSION, however often the caller retries, and accepts at most six responses in its life.",
  "every history, every number of retries, every configuration",
  "quantifies over unbounded sequences of calls",
  ["src/transcript.rs: extend", "src/responder.rs: handle_msg", "src/requester.rs: next_request, handle_msg"])

p("An ERROR response is never taken for an answer",
  "A requester waiting for a response refuses every message with another code than the one awaited, in particular every ERROR response, with UnexpectedMsgCode naming the code awaited; its transcript is unchanged and it is unusable afterwards. So when a responder fails, the requester waiting for its answer stops as well: with that error, or with a panic when the responder's buffer was too small for the ERROR response and nothing was sent.",
  "every state of both sides, every history, every message",
  "quantifies over all states and messages",
  ["src/requester.rs: expect, handle_msg", "src/responder.rs: handle_msg", "src/responder/error.rs"])

p("The measurement summary sent is the one requested",
  "CHALLENGE_AUTH carries a measurement summary hash exactly when CHALLENGE requested one, of the requested kind; a requester that requests none accepts answers without.",
  "every CHALLENGE request, every state and history",
  "quantifies over all requests and states",
  ["src/responder/challenge.rs: handle_msg", "src/requester/challenge.rs: write_msg, handle_msg", "src/msgs/challenge.rs: MeasurementHashType"])

p("Retransmission: a request answered once can be sent again; a response is accepted once",
  "A request that was answered and is sent again (say because the answer got lost) is answered again while there is room in the transcript. A response the requester accepted is never accepted a second time.",
  "every history, every request and response",
  "quantifies over all histories and messages",
  ["src/responder.rs: handle_msg", "src/responder/capabilities.rs", "src/responder/algorithms.rs", "src/responder/id_auth.rs", "src/responder/challenge.rs", "src/requester.rs: handle_msg"])

p("A requester's messages reveal only its configuration, the phase, its nonce and the slot it was told",
  "Two requesters with the same configuration waiting for the same message (and, before CHALLENGE, told the same slot number) send the same bytes given the same nonce, whatever their histories, peers and root certificates; and the nonce appears in CHALLENGE only.",
  "every pair of requesters with arbitrary histories, all nonces and buffers",
  "a property of pairs of executions",
  ["src/requester.rs: next_request", "src/requester/*.rs: write_msg", "src/config.rs"])

p("A responder's answers reveal nothing but slots, request, negotiated algorithms and nonce; GET_VERSION forgets the rest",
  "Two responders with the same slots that agree on the negotiated hash and signature algorithm and on mutual authentication give the same answer to the same request, up to the signature in CHALLENGE_AUTH (given the same nonce), whatever else their histories were, and agree again afterwards; so whole request sequences without CHALLENGE get the same answers. After an answered GET_VERSION a responder behaves in every later call exactly like a newly created one that answered the same GET_VERSION.",
  "every pair of responders with arbitrary histories, every request sequence",
  "a property of pairs of executions",
  ["src/responder.rs: handle_msg, reset", "src/responder/*.rs: handle_msg", "src/transcript.rs: clear"])

p("The state shown is what was negotiated, and is not renegotiated",
  "The state an endpoint shows tells what the messages of the current session said: a responder's capabilities are those of the GET_CAPABILITIES it received and the CAPABILITIES it sent, its algorithms those it told in ALGORITHMS, chosen from the offer received, and the phase the messages exchanged since GET_VERSION; a requester's version, capabilities, algorithms, slot and certificate chain are those of the responses it accepted, in answer to its own requests. Once shown, a value never changes whatever is called, until the endpoint fails, a new GET_VERSION or a reset (responder) or the end of the session (requester). The name of the state tells which message was handled last, and the requester's is NewSession exactly if next_request reports InitializationComplete.",
  "every history of both endpoints, every further sequence of calls",
  "quantifies over all histories and continuations",
  ["src/responder.rs: state, handle_msg", "src/requester.rs: state, next_request, handle_msg", "src/responder/*.rs: State", "src/requester/*.rs: State"])

p("What the endpoints ask of the cryptographic functions",
  "A responder asks its cryptographic functions only this: in answer to GET_DIGESTS the hash, with the negotiated algorithm, of each chain it holds; in answer to CHALLENGE the hash of the named slot's chain, the hash of all messages of the session up to the signature, and that slot's key for a signature of this hash. A requester asks only when it handles a CHALLENGE_AUTH for its slot: the hash of the chain received, and, if that is the hash in the message, the hash of all messages up to the signature, whether leaf and root certificate parse, whether the chain verifies up to the root certificate configured at the fixed time, and, the chain being trusted, whether the DER form of the signature verifies over the hash. Nothing else of them matters: with another library and other keys that answer just these questions alike, every result, every byte written and every later behaviour is the same.",
  "every history, every message, every pair of libraries and keys",
  "a property of pairs of executions and of all libraries",
  ["src/responder/id_auth.rs: hash_cert_chains", "src/responder/challenge.rs: handle_msg", "src/requester/challenge.rs: handle_msg, verify_cert_chain_and_signature", "src/crypto/mod.rs", "src/crypto/ring/pki.rs"])

p("An endpoint can be inspected at any time",
  "After any calls, successful or not, the transcript an endpoint shows has the length it claims, within its buffer, so showing it never panics; an endpoint still shows the slots it was created with (a requester's have no influence on anything else); and state() shows a state, panicking exactly if a handle_msg panicked before (for a responder: since the last reset). In particular a caller that catches no panics can always call state(), as the source comment promises.",
  "every history of calls of both endpoints, including failed and panicking ones",
  "quantifies over all histories",
  ["src/responder.rs: state, transcript, slots, handle_msg", "src/requester.rs: state, transcript, handle_msg", "src/transcript.rs: get"])

p("No length computation overflows a machine word",
  "On a machine with words of 32 bits or more, with buffers and slices that fit its memory (at most isize::MAX bytes), machine arithmetic gives what unbounded arithmetic gives, in debug builds (where overflow panics) and in release builds (where it wraps): every sequence of Writer, Reader and Transcript calls, parsing a certificate chain, writing one whose certificates add up to less than a word, the sizes of opaque data and measurement records, and the lengths in a DER signature. The length of a chain whose certificates (as overlapping slices) add up to more than a word panics in a debug build and is taken modulo the word in a release build; nothing else overflows.",
  "every word size from 32 bits on, every buffer in memory, every sequence of calls, both build profiles",
  "quantifies over buffers far larger than a test can allocate and over machines",
  ["src/msgs/encoding.rs: Writer, Reader", "src/transcript.rs: extend", "src/msgs/certificates.rs: CertificateChain::parse, write", "src/msgs/common.rs: OpaqueData::serialized_size", "src/msgs/measurements.rs: MeasurementBlocks::serialized_size", "src/crypto/pki.rs: DER lengths"])

p("A failing random source is fatal only where a nonce is needed, and never gives a predictable nonce",
  "When the operating system supplies no entropy, a requester about to send CHALLENGE panics in next_request, with buffer, transcript and state unchanged, so that it can go on later; a responder panics on a CHALLENGE it would have taken into its log, having written nothing, and can be used again after reset, as good as new. Every other call of both gives exactly what it gives with a working source; in particular no CHALLENGE is sent or answered without entropy. Histories with such failures lead to no other usable states than histories without.",
  "every history of calls with any pattern of failures of the random source, both endpoints, builds with and without the rand feature",
  "quantifies over histories and failure points of the operating system's random source",
  ["src/crypto/nonce.rs: Nonce::new", "src/msgs/challenge.rs: Challenge::new", "src/requester/challenge.rs: write_msg", "src/responder/challenge.rs: handle_msg", "src/responder.rs: handle_msg, reset", "src/requester.rs: next_request"])

p("The documented loops end, in the documented ways, whatever the peer does",
  "The loop README.adoc tells the user of a requester to write (ask, send, receive, handle, until complete) ends within six rounds against any peer, even one that answers with arbitrary bytes. The exchanges it completed are the protocol's, in order. When it ends with success, their number is what the announced capabilities require, and with certificates and challenges announced the last response authenticates the log of the loop. In a build that build.rs accepts, asking never panics in it and fails only because the request does not fit the caller's buffer or the transcript. Against an honest responder in its documented loop (handing over the bytes received), with large enough buffers, it succeeds, and both ends hold the same transcript.",
  "every peer (any function of the exchanges so far), every supply of buffers and randomness, every pair of builds that fit together",
  "quantifies over peers and over runs of a loop whose length the program does not bound itself",
  ["README.adoc: Requester API, Responder API", "src/requester.rs: next_request, handle_msg", "src/responder.rs: handle_msg"])

p("A build uses the configuration file as it is now",
  "After any history of edits and builds, with any features, `cargo build` compiles in the constants of the configuration file that SPDM_CONFIG names (spdm-config.toml if it is unset) and of the template as they are at that moment, and fails if that file is missing, does not parse or is refused.",
  "every history of builds, with every content of the files, value of SPDM_CONFIG and feature set at each",
  "a property of histories of edits and builds; unit tests run inside one build",
  ["build.rs: main, load, gen_config", "README.adoc: SPDM_CONFIG"])

p("A certificate chain is used only if it is complete and belongs to the requester's root",
  "The requester takes a certificate chain as received only when the CERTIFICATE message says that nothing remains, and authenticates only with a chain that starts with the hash of its root certificate. A responder answers GET_CERTIFICATE with no more bytes of the chain than were asked for, from the offset asked for, and the number remaining. Between a requester and the responder whose key is certified, without forgeries, the chain authenticated with is all of that responder's slot 0.",
  "every history of both endpoints, every offset and length, every peer, every attacker on the transport",
  "quantifies over sessions with hostile peers and over all offsets and lengths",
  ["src/requester/id_auth.rs: handle_msg, handle_certificate", "src/requester/challenge.rs: verify_cert_chain_and_signature", "src/responder/id_auth.rs: handle_get_certificate", "src/msgs/certificates.rs: Certificate, CertificateChain"])

p("Version negotiation succeeds with every peer that has a version in common",
  "A requester waiting for VERSION that receives a well-formed list containing a version it supports, with room in its transcript, goes on with the highest such version, however many other versions are listed.",
  "every list of versions, every history of the requester",
  "quantifies over all lists of versions, including those of peers newer than this implementation",
  ["src/msgs/version.rs: Version::parse_body, MAX_ALLOWED_VERSIONS", "src/requester/version.rs: handle_msg, find_max_matching_version"])

p("The responder selects algorithms its build supports",
  "When NEGOTIATE_ALGORITHMS offers a hash that the responder's library computes, the responder selects such a hash out of the offer; when it offers a signature algorithm the responder's build is configured for, the responder selects such an algorithm.",
  "every offer, every history of the responder, every build",
  "quantifies over all offers (sets of algorithms) and all builds",
  ["src/responder/algorithms.rs: choose_algorithms", "build.rs: signing_algorithms", "src/crypto/digest.rs"])

p("Honest endpoints authenticate whichever certificate slots are provisioned",
  "When both ends announce certificates and challenges, and the responder holds in some slot a chain that the requester trusts, with its key, a run over a faithful transport with large enough buffers ends with the responder authenticated.",
  "every provisioning of the slots, every pair of builds, all randomness",
  "quantifies over all provisionings and whole runs of two endpoints; the tests fill slot 0",
  ["src/requester/id_auth.rs: write_get_certificate_msg", "src/requester/challenge.rs: write_msg", "src/responder/id_auth.rs: handle_get_certificate", "src/responder/challenge.rs: handle_msg"])

p("A failed next_request leaves no trace",
  "If next_request returns an error (buffer too small, transcript full, already complete), the requester goes on as if the call had not been made: however many such failures there were, the message log is unchanged and the next call of next_request has the outcome it would have had (result, bytes, requester afterwards); and while a request is outstanding the failures change nothing that the caller can ever observe.",
  "every history of a requester, every number of failed calls with any buffers and randomness, every later sequence of calls",
  "quantifies over all histories, all numbers of failures and all continuations",
  ["src/requester.rs: next_request, write_req", "src/requester/version.rs: write_get_version", "src/requester/capabilities.rs: write_msg", "src/requester/algorithms.rs: write_msg", "src/requester/id_auth.rs: write_get_digests_msg, write_get_certificate_msg", "src/requester/challenge.rs: write_msg"])

p("No transcript is signed twice",
  "With the rand feature, a responder key is never used for the same message log twice, in whatever sessions, slots and responders of a build, as long as no nonce is drawn twice: what is signed in answer to CHALLENGE determines the responder's nonce, however the requests were framed and whatever they contained. If the digests signed are equal, then the logs are equal or are a collision, and in equal logs the nonce is the same and the certificate chain too (or the two chains collide).",
  "every two CHALLENGE requests answered, or refused only when signing, in any two histories of responders with any slots and signing keys",
  "quantifies over all pairs of histories and all contents of the requests",
  ["src/responder/challenge.rs: State::handle_msg", "src/crypto/nonce.rs: Nonce::new", "src/msgs/challenge.rs: ChallengeAuth (Msg::write_body)", "src/transcript.rs: Transcript"])

p("One answered CHALLENGE authenticates to one requester session",
  "When a responder's session ended with one answered CHALLENGE, all requesters that authenticate the responder over the log it then signed have sent the same messages as each other, the nonce in CHALLENGE included: one CHALLENGE_AUTH cannot be used for two requesters with different nonces. The only alternative is a named collision of the hash.",
  "every pair of requester sessions and every responder session, every rewriting of messages by the network, every pair of builds, all randomness",
  "quantifies over pairs of sessions and all network attackers; the tests run one requester against one responder",
  ["src/requester/challenge.rs: handle_msg", "src/responder/challenge.rs: State::handle_msg", "src/msgs/challenge.rs: ChallengeAuth::parse_body", "src/msgs/common.rs: OpaqueData::read"])

with open("/verif/properties.jsonl","w") as f:
    for r in P: f.write(json.dumps(r)+"\n")
print(len(P))
