# Formal model of oxidecomputer/spdm in Coq

The model is an executable Gallina transcription of the crate in `/repo`
(`src/**` and `build.rs`).  Every definition cites the
file and lines it models and says where it simplifies.  Rust `Result` becomes
`Ok/Err`, a panic is the third explicit outcome `Panic k`, and a function taking
`&mut` state returns the new state (also on error and on panic, because the Rust
code leaves partially updated state behind).  Theorems quantify over every
configuration, every message, every history of calls and every crypto oracle,
unless the statement says otherwise.

## 1. Trusted base

* Coq 8.16.1's kernel, including its `vm_compute` (used for the concrete
  examples and the `_refuted` witnesses only).
* **Axioms: none.**  `Print Assumptions` says `Closed under the global context`
  for every theorem in MANIFEST.json (checked for all of them with a generated
  file; many property files also print it for their main theorems when built).
  The seven names of `Coq.ssr.ssrunder` that vcheck lists as library axioms are
  the fields of a module type of the standard library that is loaded with
  `ssreflect`; no theorem depends on them.
* No plugin, no functor, no module type, no `Admitted`, no disabled check.
  Only the Coq standard library is used.
* The reading of the Rust code: that the definitions in the model files say what
  the cited lines do.  The development never executes the Rust code.
* The specification files (`Spec*.v`): they are written from the SPDM tables and
  the documentation over byte lists and record types; no handler, reader or
  writer of the model occurs in them.
* What the theorems say is conditional on nothing but the hypotheses in them.
  The recurring ones:
  `bytes l` (all elements < 256; a Rust `&[u8]` always satisfies it);
  `hash_contract` (the hash oracle returns digests of the standard length:
  a contract of ring's `digest`);
  `setting`/`req_setting` (slot count at most 8 and signature size below 254,
  which build.rs guarantees: `C44_accepted_config_never_fails`).

## 2. What is modelled

| Rust | Coq |
|------|-----|
| `src/msgs/encoding.rs` (Writer, Reader, all methods) | `Encoding.v` |
| `src/msgs/mod.rs`, `src/msgs/common.rs` (Msg trait, header, DigestBuf, SignatureBuf, opaque data, vendor ids) | `MsgCommon.v`, storage in `Bufs.v` |
| `src/msgs/version.rs` | `MsgVersion.v` |
| `src/msgs/capabilities.rs` | `MsgCapabilities.v` |
| `src/msgs/algorithms.rs` | `MsgAlgorithms.v` |
| `src/msgs/digest.rs` | `MsgDigest.v` |
| `src/msgs/certificates.rs` (messages, CertificateChain, CertificateChainBuilder) | `MsgCertificates.v` |
| `src/msgs/challenge.rs`, `src/crypto/nonce.rs` | `MsgChallenge.v` |
| `src/msgs/measurements.rs` (incl. BitStream, constructors) | `MsgMeasurements.v`, `Bufs.v` |
| `src/msgs/error.rs` | `MsgError.v` |
| `src/transcript.rs` | `Transcript.v` |
| `src/crypto/pki.rs` (bin_to_der and its helpers), `src/crypto/slot.rs`, `src/crypto/ring/pki.rs`, `src/crypto/no_crypto_defaults.rs` | `Crypto.v` |
| `src/crypto/digest.rs`, `src/crypto/ring/digest.rs`, `src/crypto/signing.rs`, `src/crypto/ring/signing.rs` | `CryptoApi.v` (and `Crypto.v`) |
| `src/responder.rs`, `src/responder/*.rs` | `Responder.v`; accessors `Accessors.v`; failing random source `Entropy.v` |
| `src/requester.rs`, `src/requester/*.rs` | `Requester.v`; `Accessors.v`; `Entropy.v` |
| `README.adoc` (the two example loops) | `Loops.v` |
| `build.rs` (validation and constants), `config.rs.template`, `src/config.rs` | `ConfigBuild.v`, `Config.v`; generated text in `ConfigText.v`; `main`, files, SPDM_CONFIG and cargo's rerun rule in `BuildScript.v` |

### Not modelled

* The external crates `ring`, `webpki`, `rand`, `toml`, `tinyvec`/`bitflags`
  internals.  Hashing, certificate parsing, chain validation, signature
  verification and signing are oracles: fields of `Class Crypto` (and of
  `HashImpl`/`RingKeys` in `CryptoApi.v`) over which all theorems quantify.
  Hence no theorem says that a signature cannot be forged: C64 and C65 take
  unforgeability and an honest certification authority as explicit hypotheses of
  the theorem (met in the concrete world of C64_example); the others say what was
  signed, with which key, what was verified, against which certificate, root and
  time, and that nothing is accepted without it.
  Collision resistance cannot be assumed either: with digests of fixed length some
  two inputs always collide, so 'unless some collision exists' would make a theorem
  empty.  C40, C64, C65, C69, C88 and C93 therefore name the two inputs: the log this
  requester verified and the log that was signed (`collision`, `signed_collision` in
  SpecAuth.v); without such a pair among the logs of an actual run they conclude
  agreement.
* Randomness: the nonce bytes are an argument of the call (`fresh`).  That the
  source is unpredictable cannot be expressed.  In Responder.v and Requester.v the
  source always works; Entropy.v has the calls with a source that fails
  (`OsRng.fill_bytes` then panics), and C85 says what changes: nothing but that
  a call that needs a nonce panics.
* TOML parsing: the input of `gen_config` is the deserialized record, and in
  BuildScript.v the parser is an arbitrary function of the file's text.  Of cargo
  only the documented rerun rule is modelled.
* `Debug`/`Display` text, derives other than `PartialEq` of the buffers (C48),
  `test-utils`, `tests`, the example certificates.
* `usize` overflow: lengths are `nat` in the model.  That this loses nothing is C84:
  Word.v gives the same functions in machine arithmetic on a word of 32 bits or
  more (wrapping or panicking), and PropWord.v shows they agree.  Subtractions
  that could underflow are modelled explicitly as panics.
* Lifetimes, borrowing, `Send`/`Sync`; the type-level guarantees of Rust are
  used silently (e.g. a moved requester is not used again).
* Timing and memory traces (constant-time behaviour).

## 3. Representation choices

* `u8/u16/u32` are `N`; a well-formedness predicate says bytes are below 256.
  Narrowing casts (`as u8`, `as u16`) are explicit `mod`.  Lengths and offsets
  (`usize`) are `nat`.
* Overflow checks: the shift-amount and subtraction overflows that the code can
  actually reach depend on the build profile; they are modelled under a boolean
  `overflow_checks` (true: panic, false: wrap), and theorems quantify over it.
* All build-time constants (`config::*`) are fields of `Class Config` over which
  theorems quantify; the crypto provider is `Class Crypto`.
* `bitflags` sets are the integers they wrap.
* `DigestBuf`, `SignatureBuf`, `OpaqueElement`, `BitStream` are represented in
  messages by their visible contents; `Bufs.v` models their storage and proves
  that equality and contents coincide (C48).
* The caller's output buffer is a list whose new contents each call returns, so
  that "only these bytes change" is a statement (C21, C53).
* The slots of a requester are dropped in Requester.v: the code stores and returns
  them, and never reads them.  Accessors.v has the requester with its slots, and
  C83_requester_slots and C83_same_requester say that nothing is lost.

## 4. Proof method

* Writers: `emits m bs` (`WriterLogic.v`: exact bytes, exact offset, frame,
  BufferFull iff not fitting), compositional over the state/error monad.  Wire
  layouts are byte-list equations in `SpecWire.v`.
* Readers: `rspec p R P` (`ReaderLogic.v`): the parser accepts exactly the
  prefixes related by `R` to its result and panics exactly on inputs in `P`.
  Compositional; gives soundness, completeness, prefix stability and panic
  characterisation at once.
* State machines: a step relation in the specification (`served` for the
  responder, `requested`/`accepted` for the requester), proved equivalent to a
  successful call (`step_sound`/`step_complete`, `ReqStep.v`, `ReqMsg.v`), then
  lifted to all histories by induction.
* Failure behaviour: an ordered list of checks (`SpecVerdict.v`,
  `SpecReqVerdict.v`); the first failing check determines error or panic.  The
  handlers are proved to follow the list for every input (C54, C59).
* Relational properties (C53, C60): two-run simulations.
* A property that is false of the code gets `_refuted` theorems (a concrete
  witness, evaluated in the kernel) and a `_partial` theorem under the weakest
  guard found.
* Non-vacuity: beside each theorem an `Example` meets its hypotheses, mostly on
  a complete protocol run with the default configuration (`Sample.v`,
  `SampleRun.v`, `SampleReq.v`).
* `RepoTests.v` replays the repository's own unit tests (44 of the 51: all of
  those of modelled code) on the model: same inputs, same calls, same
  assertions, evaluated by the kernel. They are evidence that the model is the
  program, not proofs; no theorem depends on them.
* Wrong programs: `seeded/LOG.jsonl` records edits of the model and the theorems
  that fail on each.

## 5. Plan per property

| id | what is modelled and how it is proved | file |
|----|------|------|
| C01–C05 | Writer and Reader: equations for each call, bit strings as integers, induction over arbitrary call sequences | PropEncoding, PropSkip |
| C06 | Transcript refines an append-only list with a bound | PropTranscript |
| C07, C08 | layouts, `emits`/`rspec`, round trips | PropVersionCaps |
| C09, C10 | same; loops over algorithm structures by induction | PropAlg |
| C11–C13 | same; certificate chain builder and parser | PropCerts |
| C14–C17 | same; C15 is false for mutual authentication | PropChal |
| C18, C19 | same; C19 false for records above the parser's limit | PropMeas |
| C20–C23, C46 | statements about all 15 message types at once via `SpecMsgs.v`; panics characterised exactly | PropGeneric |
| C24–C27, C33, C50 | responder over arbitrary histories | PropResponder, PropRspState |
| C28–C32 | contents of each answer; causes of panics | PropRspAns |
| C34–C38, C41 | requester over arbitrary histories: the grammar of a session (`req_now`, `told_*`) is an invariant | PropReqState |
| C39 | both machines against each other, each with its own build, over a faithful transport; induction along the run | PropAgree |
| C40 | active attacker on the transport: agreement from equal transcripts when no message has trailing bytes (`_partial`); attacks with trailing bytes, also when only one side tolerates them (`_refuted`) | PropMitm, PropFraming |
| C42 | what binds certificate, slot and digest; `_refuted` for the rest; all of it in a session without forgeries (C42_unforged_partial) | PropReqLimits, PropChain |
| C43 | bin_to_der against an independent DER integer/sequence specification, in every buffer (writes exactly the encoding or panics) | PropDer |
| C44, C45, C48, C49 | build.rs validation; slot masks; storage equality; finite tables; C44 verdict: faults as an inductive relation, first fault reported | PropTables, PropConfigVerdict |
| C47 | exact set of responses on which the requester panics | PropReqPanic |
| C51, C52 | success of every call characterised by the step relation (iff) | PropExact |
| C53 | two-run simulation over output buffers | PropNonInterf |
| C54 | responder verdict; the error exactly (each row names one error) | PropVerdict, PropErrors |
| C55 | constructors accept exactly valid arguments | PropConstruct |
| C56–C58 | injectivity of encodings; exactly which accepted messages re-encode to what was accepted | PropCanon, PropReencode |
| C59 | requester verdict; the error exactly | PropReqVerdict, PropErrors |
| C60 | two-run simulation over slot arrays | PropSlots |
| C61 | unreachable states in builds without provider; refuted for a responder with a filled slot | PropNoCrypto |
| C62 | incremental hashing refines one-shot hashing for any chunking; algorithm tables; sign then verify under a contract on ring and webpki | PropCryptoApi |
| C63 | completion implies authentication or an announced lack of it; downgrade refuted | PropDowngrade |
| C64 | end to end: unforgeability and an honest CA as explicit hypotheses (SpecAuth); an accepted CHALLENGE_AUTH was signed by a responder over exactly this session; with exact framing full agreement (via C38, C40) | SpecAuth, PropAuth |
| C65 | every accepted response answers the last request or comes with none outstanding (C36's grammar); freshness from C64; replay to a requester that sent no CHALLENGE refuted | PropFresh |
| C66 | C39 transported to every live responder state: C24's restart is similar to a new responder (simulation of C33), then step by step; iterated | PropAvail |
| C67 | the template text verbatim in the model; a line reader as specification; the code lines of the output computed for symbolic parameters | PropConfigText |
| C68 | C36_session_grammar gives the shape of every requester conversation; step_sound that of the responder's; the first byte read off; two runs refute the full claim | PropVersion |
| C69 | conversations whose messages carry appended bytes on either side; equal transcripts compared by length through the session grammar | PropPadding |
| C70 | announcements read from the recorded messages; the grammar of requester sessions; a build without capabilities as refutation for the responder | PropCapDriven |
| C71 | relational: two runs of each handler on two buffers with enough room stay in step (same result, transcript, and written prefix); lifted to histories | BufRoom, PropSizing |
| C72 | C39's run with a two-sided step lemma (succeeds with room, cannot succeed without); uniqueness of the step relations by running them in a build with a larger transcript | Functional, PropAgree, PropTransSize |
| C73 | SpecFaults gives for every message an ordered table of checks over byte positions with the error of each; a logic `V table outcome` composed along the parser; loops by induction | SpecChecks, SpecFaults, FaultLogic, PropFaults, PropErrors |
| C74 | SpecWriteFaults gives for every message an ordered table of checks over the fields and the buffer size; the logic of C73 run on the writer, its steps from the `emits` facts of the Gram* files; loops by induction | SpecChecks, SpecWriteFaults, FaultLogic, PropWriteFaults, PropErrors |
| C75 | the transcript is the log (C27, C37) and has TRANSCRIPT_SIZE bytes; every logged message has a least size | PropSession |
| C76 | the header check of every waiting state on a message with another code; composed with the ERROR response of C26 | PropRepeat |
| C77 | CHALLENGE_AUTH's layout from the step relation: length and summary bytes, for any requested type; two runs with different types | PropSummary |
| C78 | the step relation applied twice to the same request; sessions accept each response code once | PropRepeat |
| C79 | two runs: the step relation of next_request is a function of phase, nonce and slot | PropTwoRun |
| C80 | two runs: an answer in one state is an answer in any state with the same negotiated view (then uniqueness of the step relation), by induction over request sequences; simulation of C33 after GET_VERSION | PropTwoRun |
| C81 | invariant over sessions: the state and the last messages (step relation, one case per message); then induction over further calls, every successful step keeping the fields shown and every failed one ending the session | SpecReport, PropReport, PropNames |
| C82 | two libraries and two sets of keys run in lockstep: each handler is shown equal under both, step by step, using only the answers listed in SpecCryptoUse; histories by induction over the calls | SpecCryptoUse, PropCryptoUse |
| C83 | the panicking calls are exactly those that leave no state behind; the transcript's invariant is kept by every handler whatever it returns; induction over the calls; the requester's slots by simulation | Accessors, PropInspect |
| C84 | the functions that compute with `usize` a second time in machine arithmetic; equality with the model's, step by step under the invariant that offsets stay within a buffer in memory | Word, PropWord |
| C85 | the calls with a source that may fail, compared step by step with the calls of the model: same up to the point where the nonce is drawn; histories by induction with the simulation of C33 | Entropy, PropEntropy |
| C86 | the loops of README.adoc as programs around the API, the peer an arbitrary function; invariant between rounds (a session of C36 whose length is the stage of the state), then induction over rounds; the pair by C39 | Loops, PropLoops |
| C87 | build.rs's main over a directory, SPDM_CONFIG and the features, and cargo's rerun rule; invariant over the history of builds: what is remembered is the output of one of the runs | BuildScript, PropBuild |
| C88 | composition of C64_agreement with the last three steps of the responder's session; `_refuted` for remainder, root hash, offset and length | PropChain |
| C89 | C59's ordered checks at a list of more than two versions; uniqueness of the parsed list; `_refuted` for a peer listing 1.0, 1.1, 1.2 | PropInterop |
| C90 | C28's selection rule compared with the build's configuration (built_facts) and the library; `_refuted` for an offer of RSASSA_2048 and P-256 | PropInterop |
| C91 | both ends of a faithful run are sessions (induction on the run); the requester's last six events and the responder's last three steps pin the chain to slot 0; `_refuted` by a run with slot 3 filled | PropSlotZero |
| C92 | a failed write leaves the transcript as it was and changes at most the record of the own last message, which a retry overwrites; relation kept by every later call, then induction over the failures and over the later calls | PropRetry |
| C93 | CHALLENGE_AUTH ends the signed log and has a length fixed by the hash; so equal logs have equal answers, whatever comes before | PropSignOnce |
| C94 | two uses of C40_agreement_partial against one responder session; both runs have six exchanges, so they end in the same suffix of its exchanges; `_refuted` by two requester sessions and one responder session with equal logs | PropInjective |

All properties could be expressed in the model; none is "not applicable".
`MANIFEST.json` names the theorems; its notes say what is missing of each
`partial` one.

## 6. Findings: where the code does not have the property

Each is a theorem (`_refuted`, `_panics…`) or a condition in a statement.

Security relevant:
* **C63** A peer or attacker that announces no CERT_CAP/CHAL_CAP makes a requester
  configured with both complete without authentication; `begin_session` can be
  called in any state.
* **C40** Parsers accept trailing bytes and whole buffers go into the transcript,
  so message boundaries in the signed transcript are ambiguous: an attacker can
  make the two sides disagree about capabilities and algorithms although the
  signature verifies.  It is enough that one of the two sides tolerates trailing
  bytes (C40_requester_exact_refuted, C40_responder_exact_refuted).
* **C65** `handle_msg` does not require that a request was sent.  An attacker who
  recorded one run of a responder, in which it chose the nonce itself, appends the
  recorded CHALLENGE to the recorded CERTIFICATE (trailing bytes are accepted and
  hashed) and hands in CERTIFICATE and CHALLENGE_AUTH one after the other: if the
  application passes both to `handle_msg` (nothing in the API prevents it: e.g. a
  receive loop that reads before it writes), the requester completes its
  authentication without having sent a CHALLENGE, with no forgery.  Unsolicited
  CAPABILITIES panics (`unwrap` of the request not yet written).
* **C42** DIGESTS are never compared with the chain; the slot of CERTIFICATE is not
  compared with the requested one; the root hash in the chain is never checked.
* **C32** An empty algorithm list panics the responder (debug) or selects an
  algorithm that was not offered (release, C28); a SHA-3 selection panics at
  GET_DIGESTS, an RSA selection at CHALLENGE; requests of at most two bytes panic
  in `parse_header`'s assertion (C20_short_panics).
* **C47** The requester panics on: too many or too large opaque elements, a
  signature with a zero half, a chain whose certificate does not start with 0x30,
  slot 8 in a build with eight slots; with MAX_DIGEST_SIZE < 64 also on the
  digests of a negotiated SHA-512 (build.rs does not check this constant).
* **C15, C31, C58** With mutual authentication CHALLENGE_AUTH carries
  `slot & 0x80`, i.e. always slot 0.
* **C61** A responder without crypto provider but with a filled slot panics on
  GET_DIGESTS, which it answers although CERT_CAP was not announced.
* **C68** A requester selecting version 1.0 goes on with 1.1 headers; the
  responder's ERROR messages carry 1.2 although it lists 1.0 and 1.1 only.
* **C72** config.rs documents that TRANSCRIPT_SIZE "must be larger than
  MAX_CERT_CHAIN_SIZE"; build.rs does not check it and it is not enough: a build
  with 257 > 256 completes with nobody (C72_documented_rule_insufficient).
* **C70** The responder answers GET_DIGESTS, GET_CERTIFICATE and CHALLENGE
  whatever capabilities it announced; PSK_CAP, which README.adoc describes, is
  refused by build.rs.
* **C69 (README)** The responder loop in README.adoc hands the whole receive
  buffer to `handle_msg`; the bytes behind the request go into the transcript, so
  authentication never succeeds with that loop (C69_readme_loop).
* After a panic or in the Error state every further `handle_msg` panics
  (`unimplemented!`, then `unwrap` on `None`) until `reset` (C54_after_panic,
  C59_after_panic).

* **C77** The measurement summary type in CHALLENGE is ignored: CHALLENGE_AUTH
  always carries as many zeros as a digest has (C77_summary_refuted); the requester,
  which asks for no summary, insists on one (C77_no_summary_refused), so it cannot
  authenticate a responder that follows SPDM 1.1 here.
* **C78** A repeated GET_CAPABILITIES, NEGOTIATE_ALGORITHMS or GET_CERTIFICATE ends
  the session (C78_repeat_refuted).

Other:
* `get_bits(0)` shifts by 8 (panic under overflow checks); `get_u24` and
  `skip_reserved` consume bytes when they fail part-way.
* `expect` reports `buf[0]` (the version) as the code received.
* VERSION is always written with two entries whatever `num_entries` says (C07).
* **C73** a CHALLENGE_AUTH for a slot above NUM_SLOTS is reported as
  MaxOpaqueDataSizeExceeded (src/msgs/challenge.rs:233-235); MaxSlotNumberExceeded is
  never returned by that parser (C73_challenge_auth_slot_misnamed), nor is the
  representation error of measurements (C73_representation_error_never).
* BufferFull inside opaque data is reported as WriteOpaqueElement(BufferFull).
* CHALLENGE_AUTH/MEASUREMENTS check `slot > NUM_SLOTS` (off by one), so that slot
  NUM_SLOTS is accepted by the parser but can never be written back; the opaque
  data length field is not compared with the data; MEASUREMENTS writes the slot
  only when signed (C58_unsigned_slot_refuted); its size limit excludes block
  headers (C19_large_record_refuted); opaque data of 1025..65535 bytes is written
  but refused on parse, 65536 bytes and more panic the writer (C58_writable_iff).
* The ERROR data byte is ignored for most codes; vendor defined data are not
  parsed back (C16); too short requests are answered with RequestTooLarge.
* GET_DIGESTS bodies are not parsed, GET_CERTIFICATE's offset and length are
  ignored, an empty slot is answered with an empty portion (C30).
* The requester goes on after selecting version 1.0 but always sends 0x11 headers;
  `MAX_CERT_CHAIN_SIZE as u16` is 0 for 65536; the validity time of certificates
  is the constant 2021-12-01.
* Calling next_request twice puts the request into the transcript twice (C37
  states it), so that the exchange fails at the signature.
* A P-384 signer can be created and signs, but `verify_signature` for P-384 panics in
  every build on all but a negligible part of the signatures (the DER buffer is sized
  for 64 byte signatures; C62_p384_verify_panics, C62_p384_verify_exact). The protocol never gets there: build.rs accepts P-256 only.
* Transcript's derived equality compares stale bytes (C48_transcript_eq_refuted).
* Several encodings of one value exist for VERSION, NEGOTIATE_ALGORITHMS,
  ALGORITHMS, CHALLENGE_AUTH, MEASUREMENTS and ERROR (C57_other_kinds).
* Nothing parses or writes a `DeviceMode` yet; its flag
  INVASIVE_DEBUG_AT_LEAST_ONCE_AFTER_MANUFACTURING_MODE is bit 5 (0x20), where
  DSP0274 1.2 has bit 4 (C49_mode_bits).
* **C84** Certificates given as overlapping slices (say one static certificate used
  several times) can add up to more than a 32-bit word: the length of the chain is
  summed before it is checked, so that writing it panics in a debug build and
  wraps in a release build (C84_shared_memory).
* **C89** VERSION with more than two entries is refused with TooManyVersionsReceived,
  whatever it lists: this requester cannot talk to a responder that also supports
  1.2 (C89_third_version_refuted; a TODO in src/msgs/version.rs foresees it).
* **C90** The responder selects the lowest offered signature algorithm, whether its
  build has it or not: offered RSASSA_2048 and P-256, it selects RSASSA_2048, and
  panics on CHALLENGE (C90_signature_refuted, C90_then_panics_refuted).
* **C91** The requester asks for slot 0 even if DIGESTS announces other slots only;
  the responder answers with an empty chain, which is accepted, and refuses the
  CHALLENGE (C91_other_slot_refuted).
* **C94** One CHALLENGE_AUTH can serve two requesters with different nonces: trailing
  bytes and opaque data hide the one's CHALLENGE from the other, the log is the same
  (C94_one_session_refuted; needs max_element_data_size above the default of 16).
* **C88** The requester never looks at RemainderLength: a CERTIFICATE message that
  says that more of the chain is to come is taken as all of it; nor at the root hash
  in the chain (requester/id_auth.rs, requester/challenge.rs). The responder never
  looks at offset and length (C88_requester_refuted, C88_responder_refuted).
* **Edits of the configuration file can be ignored** (build.rs:202-205).  The
  script tells cargo to watch spdm-config.toml, not the file SPDM_CONFIG names.
  With `SPDM_CONFIG=spdm-config-crypto.toml`, the command README.adoc documents,
  a later edit of that file (say, taking out a capability) is not compiled in and
  not even checked; the build succeeds with the old constants (C87_stale,
  C87_edit_ignored_refuted).
