(** Specification of the requester's protocol behaviour: what is sent in which
    state, which responses are accepted, and what the message log is afterwards.
    Written over wire layouts (SpecWire) and the public state types only; no
    handler of the model is used. *)
From Verif Require Import Base Config Encoding MsgCommon MsgVersion MsgCapabilities MsgAlgorithms MsgDigest MsgCertificates
     MsgChallenge MsgError Transcript Crypto Responder Requester ConfigBuild SpecWire SpecResponder.

(** * Version selection *)
(** The 16 bit number of a version: comparing versions is comparing numbers. *)
Definition version_number (e : VersionEntry) : N :=
  (ve_alpha e + 16 * ve_update e + 256 * ve_minor e + 4096 * ve_major e)%N.
(** The versions this implementation supports: 1.0 and 1.1. *)
Definition supported_versions : list VersionEntry := [mkVE 1 0 0 0; mkVE 1 1 0 0].
(** [v] is the greatest version both sides support, given the peer's list. *)
Definition highest_common (listed : list VersionEntry) (v : VersionEntry) : Prop :=
  In v listed /\ In v supported_versions /\
  forall w, In w listed -> In w supported_versions -> (version_number w <= version_number v)%N.

(** * Algorithm selection *)
(** [c] is one single algorithm, out of the set [offer]. *)
Definition picked_from (offer c : N) : Prop := exists i, N.testbit offer i = true /\ c = (2 ^ i)%N.
(** The selection [al], with structures [fs], is made from the request [na], [es]. *)
Definition selection_ok (na : NegotiateAlgorithms) (es : list AlgorithmRequest) (al : Algorithms) (fs : list AlgorithmRequest) : Prop :=
  al_measurement_spec al = na_measurement_spec na /\
  picked_from (na_base_asym_algo na) (al_base_asym al) /\
  picked_from (na_base_hash_algo na) (al_base_hash al) /\
  picked_from (na_base_hash_algo na) (al_measurement_hash al) /\
  forall e f, In e es -> In f fs -> alg_struct_type e = alg_struct_type f ->
    picked_from (alg_struct_fixed e) (alg_struct_fixed f).
(** The hash is one of the SPDM table. *)
Definition known_hash (h : N) : Prop := In h [1; 2; 4; 8; 16; 32]%N.

Section SpecRequester.
Context {cfg : Config} {cr : Crypto}.

(** The algorithm structures offered: DHE FFDHE_3072 and SECP_384_R1, AEAD
    AES_256_GCM and CHACHA20_POLY1305, requester signatures P-384 and P-256, and
    the SPDM key schedule. *)
Definition own_structs : list AlgorithmRequest := [Dhe 0x12; Aead 0x06; ReqBaseAsym 0x90; KeySchedule 0x01]%N.
(** The offer of this build: DMTF measurements, the configured signature
    algorithms, and the hashes of the provider. *)
Definition own_offer (na : NegotiateAlgorithms) : Prop :=
  na_measurement_spec na = 1%N /\
  (forall name, In name SIGNING_ALGOS -> BaseAsymAlgo_from_str name <> None) /\
  flags_named BaseAsymAlgo_from_str SIGNING_ALGOS (na_base_asym_algo na) /\
  na_base_hash_algo na = (match provider with ProviderRing => 7 | ProviderNone => 1 end)%N /\
  na_num_requests na = 4%N /\ na_requests na = own_structs.

(** The messages this requester sends, besides GET_VERSION; CHALLENGE carries a nonce. *)
Definition capabilities_msg (own : N) : list N := [0x11; 0xE1]%N ++ capabilities_layout 12 own.
Definition offer_msg (na : NegotiateAlgorithms) : list N :=
  [0x11; 0xE3]%N ++ negotiate_layout 4 48 1 (na_base_asym_algo na) (na_base_hash_algo na) [] [] (no_ext own_structs).
Definition get_digests_msg : list N := [0x11; 0x81; 0; 0]%N.
Definition get_certificate_msg : list N := [0x11; 0x82]%N ++ get_certificate_layout 0 0 (N.of_nat MAX_CERT_CHAIN_SIZE mod 65536).
Definition challenge_msg (slot : N) (nonce : list N) : list N := [0x11; 0x83]%N ++ challenge_layout slot MHNone nonce.

(** [requested fresh st log out st' log']: in state [st], with message log [log],
    next_request writes [out]; then the state is [st'] and the log [log'].
    [fresh] is the random nonce. *)
Inductive requested (fresh : list N) : ReqStates -> list N -> list N -> ReqStates -> list N -> Prop :=
| requested_version log :
    requested fresh ReqVersion log get_version_bytes ReqVersion get_version_bytes
| requested_capabilities s log own out :
    (forall name, In name CAPABILITIES -> ReqFlags_from_str name <> None) -> flags_named ReqFlags_from_str CAPABILITIES own ->
    out = capabilities_msg own ->
    requested fresh (ReqCapabilities s) log out
      (ReqCapabilities (mkReqCap (qc_version s) (Some 12%N) (Some own) (qc_responder_ct s) (qc_responder_cap s))) (log ++ out)
| requested_algorithms s log na out :
    own_offer na ->
    out = offer_msg na ->
    requested fresh (ReqAlgorithms s) log out
      (ReqAlgorithms (mkReqAlg (qa_version s) (qa_requester_ct s) (qa_requester_cap s)
                               (qa_responder_ct s) (qa_responder_cap s) (Some na) (qa_algorithms s))) (log ++ out)
| requested_digests s log out :
    qi_digests s = None -> out = get_digests_msg ->
    requested fresh (ReqIdAuth s) log out (ReqIdAuth s) (log ++ out)
| requested_certificate s log out :
    qi_digests s <> None -> 0 < NUM_SLOTS ->
    out = get_certificate_msg ->
    requested fresh (ReqIdAuth s) log out (ReqIdAuth s) (log ++ out)
| requested_challenge s log out :
    out = challenge_msg (qh_cert_slot s) (wire_nonce fresh) ->
    requested fresh (ReqChallenge s) log out
      (ReqChallenge (mkReqChal (qh_version s) (qh_requester_ct s) (qh_requester_cap s) (qh_responder_ct s) (qh_responder_cap s)
                               (qh_algorithms s) (qh_cert_slot s) (qh_cert_chain s) (qh_cert_chain_size s)
                               (Some (wire_nonce fresh)))) (log ++ out).

(** Both sides announced a capability. *)
Definition both (i : N) (a b : N) : bool := N.testbit a i && N.testbit b i.
Definition cert_bit : N := 1.
Definition chal_bit : N := 2.

(** The fixed moment at which certificates must be valid: midnight UTC on
    1 December 2021, in seconds since the Unix epoch. *)
Definition trust_time : N := (18962 * 86400)%N.

(** The certificate chain [portion] is the chain [chain], which verifies up to
    the root certificate with signature algorithm [asym]. *)
Definition chain_trusted (root : list N) (asym : N) (ds : nat) (portion : list N) (chain : CertificateChain) : Prop :=
  portion = chain_bytes chain /\ chain_ok ds chain /\
  webpki_cert_ok (cc_leaf_cert chain) = true /\ webpki_anchor_ok root = true /\
  webpki_chain_ok asym (cc_leaf_cert chain) (cc_intermediates chain) root trust_time = true.
(** The raw signature, two equal halves, converted to DER, verifies over [msg]
    under the certificate [leaf]. *)
Definition signature_verifies (asym : N) (leaf msg signature : list N) : Prop :=
  exists k der, length signature = 2 * k /\
    be_val (firstn k signature) <> 0%N /\ be_val (skipn k signature) <> 0%N /\
    der_signature der (be_val (firstn k signature)) (be_val (skipn k signature)) /\
    webpki_sig_ok asym leaf msg der = true.

(** [accepted root rsp st log st' log']: in state [st] the response [rsp] is
    accepted; then the state is [st'] and the log [log']. *)
Inductive accepted (root rsp : list N) : ReqStates -> list N -> ReqStates -> list N -> Prop :=
| accepted_version log es v :
    starts_with ([0x10; 0x04]%N ++ version_body es) rsp -> Forall version_entry_ok es -> length es <= 2 ->
    highest_common es v ->
    accepted root rsp ReqVersion log (ReqCapabilities (mkReqCap v None None None None)) (log ++ rsp)
| accepted_capabilities s log own_ct own ct flags :
    qc_requester_ct s = Some own_ct -> qc_requester_cap s = Some own ->
    starts_with ([0x11; 0x61]%N ++ capabilities_layout ct flags) rsp -> only_bits rsp_flag_bits flags ->
    accepted root rsp (ReqCapabilities s) log
      (ReqAlgorithms (mkReqAlg (qc_version s) own_ct own ct flags None None)) (log ++ rsp)
| accepted_algorithms s log na es al fs body st' :
    qa_negotiate s = Some na -> na_num_requests na = N.of_nat (length es) -> (exists unused, na_requests na = es ++ unused) ->
    starts_with ([0x11; 0x63]%N ++ body) rsp -> algorithms_fmt body al ->
    al_num_responses al = N.of_nat (length fs) -> alg_array (al_responses al) fs ->
    selection_ok na es al fs ->
    st' = (if both cert_bit (qa_requester_cap s) (qa_responder_cap s)
           then ReqIdAuth (mkReqId (qa_version s) (qa_requester_ct s) (qa_requester_cap s) (qa_responder_ct s)
                                   (qa_responder_cap s) al None None)
           else ReqNewSession) ->
    accepted root rsp (ReqAlgorithms s) log st' (log ++ rsp)
| accepted_digests s log d :
    qi_digests s = None ->
    known_hash (al_base_hash (qi_algorithms s)) -> hash_len (al_base_hash (qi_algorithms s)) <= MAX_DIGEST_SIZE ->
    2 < length rsp ->
    starts_with ([0x11; 0x01]%N ++ digests_layout NUM_SLOTS (d_slot_mask d) (slot_digest d)) rsp ->
    digests_ok NUM_SLOTS (hash_len (al_base_hash (qi_algorithms s))) d ->
    accepted root rsp (ReqIdAuth s) log
      (ReqIdAuth (mkReqId (qi_version s) (qi_requester_ct s) (qi_requester_cap s) (qi_responder_ct s) (qi_responder_cap s)
                          (qi_algorithms s) (Some d) (qi_cert s))) (log ++ rsp)
| accepted_certificate s log c portion st' :
    qi_digests s <> None ->
    starts_with ([0x11; 0x02]%N ++ certificate_layout (cert_slot c) portion (cert_remainder_length c)) rsp ->
    certificate_has c portion ->
    st' = (if both chal_bit (qi_requester_cap s) (qi_responder_cap s)
           then ReqChallenge (mkReqChal (qi_version s) (qi_requester_ct s) (qi_requester_cap s) (qi_responder_ct s)
                                        (qi_responder_cap s) (qi_algorithms s) (cert_slot c) (cert_chain c)
                                        (N.of_nat (length portion)) None)
           else ReqNewSession) ->
    accepted root rsp (ReqIdAuth s) log st' (log ++ rsp)
| accepted_challenge s log m rsvd olen ss portion chain log' :
    hash_usable (al_base_hash (qh_algorithms s)) ->
    sig_len (al_base_asym (qh_algorithms s)) = Some ss -> ss <= MAX_SIGNATURE_SIZE ->
    In (al_base_asym (qh_algorithms s)) [0x10; 0x80]%N ->
    starts_with ([0x11; 0x03]%N ++ ca_bytes rsvd olen m) rsp -> (rsvd < 8)%N -> (olen <= 1024)%N ->
    ca_fields_ok (hash_len (al_base_hash (qh_algorithms s))) ss m ->
    (** the slot is that of the certificate received, and is in the mask (slot 8 of
        a build with 8 slots and no overflow checks counts as slot 0) *)
    ca_slot m = qh_cert_slot s -> N.testbit (ca_slot_mask m) (ca_slot m mod 8) = true ->
    (overflow_checks = true -> (ca_slot m < 8)%N) ->
    portion = firstn (N.to_nat (qh_cert_chain_size s)) (qh_cert_chain s) ->
    length portion = N.to_nat (qh_cert_chain_size s) -> (N.of_nat (length portion) < 65536)%N ->
    ca_cert_chain_hash m = sha (al_base_hash (qh_algorithms s)) portion ->
    chain_trusted root (al_base_asym (qh_algorithms s)) (hash_len (al_base_hash (qh_algorithms s))) portion chain ->
    log' = log ++ firstn (length rsp - ss) rsp ->
    signature_verifies (al_base_asym (qh_algorithms s)) (cc_leaf_cert chain)
      (sha (al_base_hash (qh_algorithms s)) log') (ca_signature m) ->
    accepted root rsp (ReqChallenge s) log ReqNewSession log'.

(** * Histories *)
(** What is assumed of the build: build.rs accepts 1 to 8 slots and makes
    MAX_SIGNATURE_SIZE 64; and of the hash implementation. *)
Definition req_setting : Prop := NUM_SLOTS <= 8 /\ MAX_SIGNATURE_SIZE < 254 /\ hash_contract.
(** The calls a user can make, with the randomness consumed by each. *)
Inductive req_call := CallNext (fresh buf : list N) | CallMsg (rsp : list N).
Definition fresh_ok (fresh : list N) : Prop := length fresh = 32 /\ bytes fresh.
Definition req_call_ok (c : req_call) : Prop :=
  match c with CallNext fresh _ => fresh_ok fresh | CallMsg rsp => bytes rsp end.
Definition req_after_call (R : Requester) (c : req_call) : Requester :=
  match c with
  | CallNext fresh buf => let '(_, _, R') := requester_next_request R fresh buf in R'
  | CallMsg rsp => let '(_, R') := requester_handle_msg R rsp in R'
  end.
Definition req_after (R : Requester) (calls : list req_call) : Requester := fold_left req_after_call calls R.
(** [R] is a requester with this root certificate after some arbitrary history. *)
Definition req_reached (root : list N) (R : Requester) : Prop :=
  exists calls, Forall req_call_ok calls /\ R = req_after (requester_new root) calls.

(** Same state, up to the record of the own last message of that state. *)
Definition same_state (st st' : ReqStates) : Prop :=
  match st, st' with
  | ReqError, ReqError | ReqVersion, ReqVersion | ReqNewSession, ReqNewSession => True
  | ReqCapabilities s, ReqCapabilities s' =>
      qc_version s' = qc_version s /\ qc_responder_ct s' = qc_responder_ct s /\ qc_responder_cap s' = qc_responder_cap s
  | ReqAlgorithms s, ReqAlgorithms s' =>
      qa_version s' = qa_version s /\ qa_requester_ct s' = qa_requester_ct s /\ qa_requester_cap s' = qa_requester_cap s /\
      qa_responder_ct s' = qa_responder_ct s /\ qa_responder_cap s' = qa_responder_cap s /\ qa_algorithms s' = qa_algorithms s
  | ReqIdAuth s, ReqIdAuth s' => s' = s
  | ReqChallenge s, ReqChallenge s' =>
      s' = mkReqChal (qh_version s) (qh_requester_ct s) (qh_requester_cap s) (qh_responder_ct s) (qh_responder_cap s)
             (qh_algorithms s) (qh_cert_slot s) (qh_cert_chain s) (qh_cert_chain_size s) (qh_nonce s')
  | _, _ => False
  end.

(** What a requester did: messages it wrote, messages it accepted. *)
Inductive event := Sent (msg : list N) | Got (msg : list N).
(** [R] has done exactly this since it was created, with no rejected response.
    A failed next_request is no event. *)
Inductive req_session (root : list N) : list event -> Requester -> Prop :=
| req_session_new : req_session root [] (requester_new root)
| req_session_sent ev R fresh buf out buf' R' :
    req_session root ev R -> fresh_ok fresh -> requester_next_request R fresh buf = (Ok out, buf', R') ->
    req_session root (ev ++ [Sent out]) R'
| req_session_failed ev R fresh buf e buf' R' :
    req_session root ev R -> fresh_ok fresh -> requester_next_request R fresh buf = (Err e, buf', R') ->
    req_session root ev R'
| req_session_got ev R rsp b R' :
    req_session root ev R -> bytes rsp -> requester_handle_msg R rsp = (Ok b, R') ->
    req_session root (ev ++ [Got rsp]) R'.
(** Used as documented: a message is received only right after one was written. *)
Definition prompted (ev : list event) : Prop :=
  forall pre rsp post, ev = pre ++ Got rsp :: post -> exists pre' out, pre = pre' ++ [Sent out].

Definition event_code (e : event) : N := match e with Sent m => code m | Got m => code m end.
(** The message log, when signatures are [ss] long: GET_VERSION starts it, and
    the signature at the end of CHALLENGE_AUTH is left out. *)
Definition event_log (ss : nat) (log : list N) (e : event) : list N :=
  match e with
  | Sent m => if (code m =? 0x84)%N then m else log ++ m
  | Got m => if (code m =? 0x03)%N then log ++ firstn (length m - ss) m else log ++ m
  end.
Definition events_log (ss : nat) (ev : list event) : list N := fold_left (event_log ss) ev [].

(** The messages accepted so far, in order; what they say. *)
Definition received (ev : list event) : list (list N) := flat_map (fun e => match e with Got m => [m] | Sent _ => [] end) ev.
Definition selected (ev : list event) (al : Algorithms) : Prop :=
  exists m body, In m (received ev) /\ bytes m /\ starts_with ([0x11; 0x63]%N ++ body) m /\ algorithms_fmt body al.

(** * What was said, in order: the grammar of a requester's session *)
Definition asks (n : nat) (m : list N) : list event := repeat (Sent m) n.
Definition challenges (slot : N) (nonces : list (list N)) : list event := map (fun n => Sent (challenge_msg slot n)) nonces.

(** Versions [es] were listed and [v] is the greatest common one. *)
Inductive told_version (v : VersionEntry) : list event -> Prop :=
| told_version_intro n m es :
    starts_with ([0x10; 0x04]%N ++ version_body es) m -> Forall version_entry_ok es -> length es <= 2 -> highest_common es v -> bytes m ->
    told_version v (asks n get_version_bytes ++ [Got m]).
(** Own capabilities [own] were sent, the peer's [ct], [flags] received. *)
Inductive told_capabilities (v : VersionEntry) (own ct flags : N) : list event -> Prop :=
| told_capabilities_intro ev n m :
    told_version v ev -> flags_named ReqFlags_from_str CAPABILITIES own -> 0 < n ->
    starts_with ([0x11; 0x61]%N ++ capabilities_layout ct flags) m -> only_bits rsp_flag_bits flags -> bytes m ->
    told_capabilities v own ct flags (ev ++ asks n (capabilities_msg own) ++ [Got m]).
(** The peer selected [al] (structures [fs]) from the own offer [na]. *)
Inductive told_algorithms (v : VersionEntry) (own ct flags : N) (al : Algorithms) : list event -> Prop :=
| told_algorithms_intro ev n m na fs body :
    told_capabilities v own ct flags ev -> own_offer na ->
    starts_with ([0x11; 0x63]%N ++ body) m -> algorithms_fmt body al ->
    al_num_responses al = N.of_nat (length fs) -> alg_array (al_responses al) fs -> selection_ok na own_structs al fs -> bytes m ->
    told_algorithms v own ct flags al (ev ++ asks n (offer_msg na) ++ [Got m]).
(** The peer announced the digests [d]. *)
Inductive told_digests (v : VersionEntry) (own ct flags : N) (al : Algorithms) (d : Digests) : list event -> Prop :=
| told_digests_intro ev n m :
    told_algorithms v own ct flags al ev -> both cert_bit own flags = true ->
    starts_with ([0x11; 0x01]%N ++ digests_layout NUM_SLOTS (d_slot_mask d) (slot_digest d)) m ->
    digests_ok NUM_SLOTS (hash_len (al_base_hash al)) d -> bytes m ->
    told_digests v own ct flags al d (ev ++ asks n get_digests_msg ++ [Got m]).
(** The peer sent the certificate chain [portion] as that of [slot]. *)
Inductive told_certificate (v : VersionEntry) (own ct flags : N) (al : Algorithms) (d : Digests) (slot : N) (portion : list N)
  : list event -> Prop :=
| told_certificate_intro ev n m remainder :
    told_digests v own ct flags al d ev ->
    starts_with ([0x11; 0x02]%N ++ certificate_layout slot portion remainder) m -> (N.of_nat (length portion) < 65536)%N -> bytes m ->
    told_certificate v own ct flags al d slot portion (ev ++ asks n get_certificate_msg ++ [Got m]).
(** The CHALLENGE_AUTH message [rsp] authenticates: it names [slot] and the hash
    of [portion]; [portion] is a chain that verifies up to [root]; the signature
    is by its leaf, over the hash of [log]. *)
Definition authenticates (root : list N) (al : Algorithms) (slot : N) (portion : list N) (log : list N) (ss : nat) (rsp : list N) : Prop :=
  exists m rsvd olen chain,
    starts_with ([0x11; 0x03]%N ++ ca_bytes rsvd olen m) rsp /\ ca_fields_ok (hash_len (al_base_hash al)) ss m /\
    ca_slot m = slot /\ N.testbit (ca_slot_mask m) (slot mod 8) = true /\ ca_cert_chain_hash m = sha (al_base_hash al) portion /\
    chain_trusted root (al_base_asym al) (hash_len (al_base_hash al)) portion chain /\
    signature_verifies (al_base_asym al) (cc_leaf_cert chain) (sha (al_base_hash al) log) (ca_signature m).

(** The state [st] is that of a requester which did [ev]. *)
Definition req_now (root : list N) (ev : list event) (st : ReqStates) : Prop :=
  match st with
  | ReqError => False
  | ReqVersion => exists n, ev = asks n get_version_bytes
  | ReqCapabilities s => exists ev0 n own,
      told_version (qc_version s) ev0 /\ ev = ev0 ++ asks n (capabilities_msg own) /\
      qc_responder_ct s = None /\ qc_responder_cap s = None /\
      (n = 0 /\ qc_requester_ct s = None /\ qc_requester_cap s = None \/
       0 < n /\ flags_named ReqFlags_from_str CAPABILITIES own /\ qc_requester_ct s = Some 12%N /\ qc_requester_cap s = Some own)
  | ReqAlgorithms s => exists ev0 n na,
      told_capabilities (qa_version s) (qa_requester_cap s) (qa_responder_ct s) (qa_responder_cap s) ev0 /\
      ev = ev0 ++ asks n (offer_msg na) /\ qa_requester_ct s = 12%N /\ qa_algorithms s = None /\
      (n = 0 /\ qa_negotiate s = None \/ own_offer na /\ qa_negotiate s = Some na)
  | ReqIdAuth s =>
    match qi_digests s with
    | None => exists ev0 n,
        told_algorithms (qi_version s) (qi_requester_cap s) (qi_responder_ct s) (qi_responder_cap s) (qi_algorithms s) ev0 /\
        ev = ev0 ++ asks n get_digests_msg
    | Some d => exists ev0 n,
        told_digests (qi_version s) (qi_requester_cap s) (qi_responder_ct s) (qi_responder_cap s) (qi_algorithms s) d ev0 /\
        ev = ev0 ++ asks n get_certificate_msg
    end /\ qi_requester_ct s = 12%N /\ qi_cert s = None /\
    both cert_bit (qi_requester_cap s) (qi_responder_cap s) = true
  | ReqChallenge s => exists ev0 nonces d,
      told_certificate (qh_version s) (qh_requester_cap s) (qh_responder_ct s) (qh_responder_cap s) (qh_algorithms s) d
        (qh_cert_slot s) (firstn (N.to_nat (qh_cert_chain_size s)) (qh_cert_chain s)) ev0 /\
      ev = ev0 ++ challenges (qh_cert_slot s) nonces /\ Forall nonce_ok nonces /\ qh_requester_ct s = 12%N /\
      both chal_bit (qh_requester_cap s) (qh_responder_cap s) = true
  | ReqNewSession => exists v own ct flags al,
      (both cert_bit own flags = false /\ told_algorithms v own ct flags al ev) \/
      (both chal_bit own flags = false /\ exists d slot portion, told_certificate v own ct flags al d slot portion ev) \/
      (exists d slot portion ev0 nonces rsp ss,
         both chal_bit own flags = true /\ told_certificate v own ct flags al d slot portion ev0 /\ Forall nonce_ok nonces /\
         ev = ev0 ++ challenges slot nonces ++ [Got rsp] /\ sig_len (al_base_asym al) = Some ss /\
         authenticates root al slot portion (events_log ss ev) ss rsp)
  end.

(** * Panics *)
(** The build is one that build.rs accepts, for this crypto provider. *)
Definition built : Prop :=
  exists c, gen_config (match provider with ProviderRing => true | ProviderNone => false end) overflow_checks feature_rand c = Ok cfg.
(** All that makes a requester waiting for CHALLENGE_AUTH panic on [rsp]. *)
Definition challenge_panics (root : list N) (s : ReqChalState) (log rsp : list N) : Prop :=
  let h := al_base_hash (qh_algorithms s) in
  let asym := al_base_asym (qh_algorithms s) in
  let portion := firstn (N.to_nat (qh_cert_chain_size s)) (qh_cert_chain s) in
  (** opaque data that overflows its arrays *)
  (exists rest, rsp = [0x11; 0x03]%N ++ rest /\ ca_overflow (hash_len h) rest) \/
  exists m rsvd olen ss, sig_len asym = Some ss /\
    starts_with ([0x11; 0x03]%N ++ ca_bytes rsvd olen m) rsp /\ (rsvd < 8)%N /\ (olen <= 1024)%N /\
    ca_fields_ok (hash_len h) ss m /\ ca_slot m = qh_cert_slot s /\
    (** slot 8, in a build with 8 slots and overflow checks *)
    ((overflow_checks = true /\ ca_slot m = 8%N) \/
     (** otherwise all in order, and *)
     (N.testbit (ca_slot_mask m) (ca_slot m mod 8) = true /\ ca_cert_chain_hash m = sha h portion /\
      length log + (length rsp - ss) <= TRANSCRIPT_SIZE /\
      (** the certificate chain received before has no certificate where one should start, or *)
      (chain_bad_tag (hash_len h) portion \/
       (** the chain is trusted, and half of the signature is zero *)
       exists chain k, chain_trusted root asym (hash_len h) portion chain /\ length (ca_signature m) = 2 * k /\
         (be_val (firstn k (ca_signature m)) = 0%N \/ be_val (skipn k (ca_signature m)) = 0%N)))).
End SpecRequester.
