(** Model of src/requester.rs and src/requester/*.rs. *)
From Verif Require Import Base Config Encoding MsgCommon MsgVersion MsgCapabilities MsgAlgorithms
     MsgDigest MsgCertificates MsgChallenge MsgError Transcript Crypto Responder.

Section Requester.
Context {cfg : Config} {cr : Crypto}.

(** src/requester/challenge.rs:41-60 *)
Inductive ChallengeAuthError :=
| IncorrectSlot | SlotNotInMask | DigestMismatch | InvalidSignature
| CAParseChallengeAuth (e : ParseChallengeAuthError) | CAPki (e : PkiError).

(** src/requester/error.rs:21-79 *)
Inductive RequesterError :=
| ReqRead (e : ReadError)
| ReqBufferFull
| ReqUnexpectedMsgCode (expected got : N)
| ReqNoSupportedVersions (received : Version)
| ReqSelectedAlgorithmNotRequested
| ReqChallengeAuth (e : ChallengeAuthError)
| ReqParseCert (e : ParseCertificateError)
| ReqInvalidCert
| ReqParseAlgorithms (e : ParseAlgorithmsError)
| ReqParseBaseAsymAlgo
| ReqParseBaseHashAlgo
| ReqParseCapabilities
| ReqParseCapability
| ReqInitializationComplete
| ReqParseChallengeAuth (e : ParseChallengeAuthError)
| ReqParseHeader
| ReqParseVersion (e : ParseVersionError)
| ReqParseCertChain (e : ParseCertificateChainError).

(** src/requester/error.rs:81-85, 93-97, 123-127, 141-145 *)
Definition req_of_full (e : BufferFullError) : RequesterError := ReqBufferFull.
Definition req_of_pki (e : PkiError) : RequesterError := ReqInvalidCert.
Definition req_of_caps (e : ParseCapabilitiesError) : RequesterError := ReqParseCapabilities.
Definition req_of_header (e : ParseHeaderError) : RequesterError := ReqParseHeader.

(** src/requester.rs:39-48 *)
Definition req_expect (id : MsgId) (buf : list N) : res RequesterError unit :=
  match parse_header id buf with
  | Ok true => Ok tt
  | Ok false =>
    match nth_error buf 0 with
    | Some b => Err (ReqUnexpectedMsgCode (SPDM_CODE id) b)
    | None => Panic PIndex
    end
  | Err e => Err (req_of_header e)
  | Panic p => Panic p
  end.

(** src/requester/capabilities.rs:15-21 *)
Record ReqCapState := mkReqCap {
  qc_version : VersionEntry;
  qc_requester_ct : option N; qc_requester_cap : option N;
  qc_responder_ct : option N; qc_responder_cap : option N
}.
(** src/requester/algorithms.rs:19-27 *)
Record ReqAlgState := mkReqAlg {
  qa_version : VersionEntry;
  qa_requester_ct : N; qa_requester_cap : N; qa_responder_ct : N; qa_responder_cap : N;
  qa_negotiate : option NegotiateAlgorithms; qa_algorithms : option Algorithms
}.
(** src/requester/id_auth.rs:31-44 *)
Record ReqIdState := mkReqId {
  qi_version : VersionEntry;
  qi_requester_ct : N; qi_requester_cap : N; qi_responder_ct : N; qi_responder_cap : N;
  qi_algorithms : Algorithms; qi_digests : option Digests; qi_cert : option Certificate
}.
(** src/requester/challenge.rs:77-88 *)
Record ReqChalState := mkReqChal {
  qh_version : VersionEntry;
  qh_requester_ct : N; qh_requester_cap : N; qh_responder_ct : N; qh_responder_cap : N;
  qh_algorithms : Algorithms; qh_cert_slot : N; qh_cert_chain : list N; qh_cert_chain_size : N;
  qh_nonce : option (list N)
}.

(** src/requester.rs:172-184 *)
Inductive ReqStates :=
| ReqError
| ReqVersion
| ReqCapabilities (s : ReqCapState)
| ReqAlgorithms (s : ReqAlgState)
| ReqIdAuth (s : ReqIdState)
| ReqChallenge (s : ReqChalState)
| ReqNewSession.

(* ------------------------------------------------------------------ *)
(** * Writing requests *)

(** What next_request may mutate: the caller's buffer, the transcript, the state. *)
Record QCtx := mkQCtx { q_buf : list N; q_tr : Transcript; q_state : ReqStates }.
Definition Q A := M QCtx RequesterError A.

Definition q_extend (bs : list N) : Q unit := fun c =>
  let '(r, t) := map_err req_of_full (t_extend bs) (q_tr c) in (r, mkQCtx (q_buf c) t (q_state c)).
Definition q_clear : Q unit := fun c => (Ok tt, mkQCtx (q_buf c) (t_clear (q_tr c)) (q_state c)).
Definition q_set (s : ReqStates) : Q unit := fun c => (Ok tt, mkQCtx (q_buf c) (q_tr c) s).
Definition q_write {E} (from : E -> RequesterError) (w : list N -> res E nat * list N) : Q nat := fun c =>
  let '(r, buf) := w (q_buf c) in (rmap_err from r, mkQCtx buf (q_tr c) (q_state c)).
Definition q_prefix (size : nat) : Q (list N) := fun c =>
  if size <=? length (q_buf c) then (Ok (firstn size (q_buf c)), c) else (Panic PIndex, c).

(** src/requester/version.rs:14-25 *)
Definition write_get_version : Q (list N) :=
  size <- q_write req_of_full (write_msg GetVersion_id (fun e => e) get_version_write_body) ;;
  q_clear ;;;
  out <- q_prefix size ;;
  q_extend out ;;;
  ret out.

(** src/requester/capabilities.rs:62-73 *)
Definition config_to_get_capabilities_msg : res RequesterError GetCapabilities :=
  rmap (mkGetCapabilities 12) (flags_of_strings ReqFlags_from_str ReqParseCapability CAPABILITIES 0).

(** src/requester/capabilities.rs:29-40 *)
Definition cap_write_msg (s : ReqCapState) : Q (list N) :=
  msg <- lift config_to_get_capabilities_msg ;;
  size <- q_write req_of_full (write_msg GetCapabilities_id (fun e => e) (get_capabilities_write_body msg)) ;;
  out <- q_prefix size ;;
  q_extend out ;;;
  q_set (ReqCapabilities (mkReqCap (qc_version s) (Some (gc_ct_exponent msg)) (Some (gc_flags msg))
                                   (qc_responder_ct s) (qc_responder_cap s))) ;;;
  ret out.

(** src/requester/algorithms.rs:183-218 *)
Definition config_to_negotiate_algorithms_msg : res RequesterError NegotiateAlgorithms :=
  rmap (fun signing_algos =>
    mkNA MeasurementSpec_DMTF signing_algos supported_algorithms 4
      [Dhe (N.lor FFDHE_3072 SECP_384_R1);
       Aead (N.lor AES_256_GCM CHACHA20_POLY1305);
       ReqBaseAsym (N.lor ECDSA_ECC_NIST_P384 ECDSA_ECC_NIST_P256);
       KeySchedule KeySchedule_SPDM])
    (flags_of_strings BaseAsymAlgo_from_str ReqParseBaseAsymAlgo SIGNING_ALGOS 0).

(** src/requester/algorithms.rs:46-56: the message is stored before the
    transcript is extended. *)
Definition alg_write_msg (s : ReqAlgState) : Q (list N) :=
  msg <- lift config_to_negotiate_algorithms_msg ;;
  size <- q_write req_of_full
            (write_msg NegotiateAlgorithms_id (fun e => e) (negotiate_algorithms_write_body msg)) ;;
  q_set (ReqAlgorithms (mkReqAlg (qa_version s) (qa_requester_ct s) (qa_requester_cap s)
                                 (qa_responder_ct s) (qa_responder_cap s) (Some msg) (qa_algorithms s))) ;;;
  out <- q_prefix size ;;
  q_extend out ;;;
  ret out.

(** src/requester/id_auth.rs:67-75 *)
Definition write_get_digests_msg : Q (list N) :=
  size <- q_write req_of_full (write_msg GetDigests_id (fun e => e) get_digests_write_body) ;;
  out <- q_prefix size ;;
  q_extend out ;;;
  ret out.

(** src/requester/id_auth.rs:98-116 *)
Definition write_get_certificate_msg (slot : N) : Q (list N) :=
  if negb (N.to_nat slot <? NUM_SLOTS) then pnc PAssert
  else
  let msg := mkGetCertificate slot 0 (N.of_nat MAX_CERT_CHAIN_SIZE mod 65536) in
  size <- q_write req_of_full (write_msg GetCertificate_id (fun e => e) (get_certificate_write_body msg)) ;;
  out <- q_prefix size ;;
  q_extend out ;;;
  ret out.

(** src/requester/challenge.rs:109-122 with Challenge::new
    (src/msgs/challenge.rs:72-74); [fresh] is OsRng's output. *)
Definition chal_write_msg (s : ReqChalState) (fresh : list N) : Q (list N) :=
  let challenge := mkChallenge (qh_cert_slot s) MHNone (nonce_new fresh) in
  q_set (ReqChallenge (mkReqChal (qh_version s) (qh_requester_ct s) (qh_requester_cap s)
           (qh_responder_ct s) (qh_responder_cap s) (qh_algorithms s) (qh_cert_slot s)
           (qh_cert_chain s) (qh_cert_chain_size s) (Some (ch_nonce challenge)))) ;;;
  size <- q_write req_of_full (write_msg Challenge_id (fun e => e) (challenge_write_body challenge)) ;;
  out <- q_prefix size ;;
  q_extend out ;;;
  ret out.

(** src/requester.rs:216-246 *)
Definition write_req (st : ReqStates) (fresh : list N) : Q (list N) :=
  match st with
  | ReqVersion => write_get_version
  | ReqCapabilities s => cap_write_msg s
  | ReqAlgorithms s => alg_write_msg s
  | ReqIdAuth s =>
    match qi_digests s with
    | None => write_get_digests_msg
    | Some _ => write_get_certificate_msg 0
    end
  | ReqChallenge s => chal_write_msg s fresh
  | ReqError | ReqNewSession => pnc PUnimplemented
  end.

(* ------------------------------------------------------------------ *)
(** * Handling responses *)

(** Handlers mutate only the transcript. *)
Definition T A := M Transcript RequesterError A.

(** Derived PartialOrd of VersionEntry, src/msgs/version.rs:42-48:
    lexicographic in declaration order (major, minor, update, alpha). *)
Definition ve_gtb (a b : VersionEntry) : bool :=
  match (ve_major a ?= ve_major b)%N with
  | Gt => true | Lt => false
  | Eq => match (ve_minor a ?= ve_minor b)%N with
          | Gt => true | Lt => false
          | Eq => match (ve_update a ?= ve_update b)%N with
                  | Gt => true | Lt => false
                  | Eq => (ve_alpha b <? ve_alpha a)%N
                  end
          end
  end.
(** derived PartialEq *)
Definition ve_eqb (a b : VersionEntry) : bool :=
  (ve_major a =? ve_major b)%N && (ve_minor a =? ve_minor b)%N
  && (ve_update a =? ve_update b)%N && (ve_alpha a =? ve_alpha b)%N.

(** src/requester/version.rs:49-58.  The inner loop over the expected entries
    assigns and breaks at the first equal one: it assigns iff one is equal. *)
Fixpoint find_max_loop {E} (todo i : nat) (entries expected : list VersionEntry) (found : VersionEntry)
  : res E VersionEntry :=
  match todo with
  | O => Ok found
  | S t =>
    match nth_error entries i with
    | None => Panic PIndex
    | Some e =>
      find_max_loop t (S i) entries expected
        (if ve_gtb e found then if existsb (ve_eqb e) expected then e else found else found)
    end
  end.
(** src/requester/version.rs:45-65 *)
Definition find_max_matching_version {E} (v : Version) : res E (option VersionEntry) :=
  let expected := firstn (N.to_nat (v_num_entries version_default)) (v_entries version_default) in
  rmap (fun found => if ve_eqb found ve_default then None else Some found)
       (find_max_loop (N.to_nat (v_num_entries v)) 0 (v_entries v) expected ve_default).

Definition tr_extend (bs : list N) : T unit := map_err req_of_full (t_extend bs).

(** src/requester/version.rs:28-43 *)
Definition req_version_handle_msg (buf : list N) : T ReqCapState :=
  lift (req_expect Version_id buf) ;;;
  body <- lift (body_of buf) ;;
  version <- map_err ReqParseVersion (lift (version_parse_body body)) ;;
  found <- lift (find_max_matching_version version) ;;
  match found with
  | Some version_entry =>
    tr_extend buf ;;;
    ret (mkReqCap version_entry None None None None)
  | None => err (ReqNoSupportedVersions version)
  end.

(** src/requester/algorithms.rs:29-41 *)
Definition req_alg_from (s : ReqCapState) : res RequesterError ReqAlgState :=
  match qc_requester_ct s, qc_requester_cap s, qc_responder_ct s, qc_responder_cap s with
  | Some a, Some b, Some c, Some d => Ok (mkReqAlg (qc_version s) a b c d None None)
  | _, _, _, _ => Panic PUnwrap
  end.

(** src/requester/capabilities.rs:43-57 *)
Definition req_cap_handle_msg (s : ReqCapState) (buf : list N) : T ReqAlgState :=
  lift (req_expect Capabilities_id buf) ;;;
  body <- lift (body_of buf) ;;
  capabilities <- map_err req_of_caps (lift (capabilities_parse_body body)) ;;
  tr_extend buf ;;;
  lift (req_alg_from (mkReqCap (qc_version s) (qc_requester_ct s) (qc_requester_cap s)
                               (Some (cap_ct_exponent capabilities)) (Some (cap_flags capabilities)))).

(** src/requester/algorithms.rs:122-176 (four identical arms): every request of
    the same type must share a bit with the response. *)
Definition same_type_disjoint (rsp req : AlgorithmRequest) : bool :=
  match rsp, req with
  | Dhe s, Dhe r | Aead s, Aead r | ReqBaseAsym s, ReqBaseAsym r | KeySchedule s, KeySchedule r =>
    (N.land r s =? 0)%N
  | _, _ => false
  end.
Fixpoint ensure_response_loop (todo i : nat) (reqs : list AlgorithmRequest) (rsp : AlgorithmRequest)
  : res RequesterError unit :=
  match todo with
  | O => Ok tt
  | S t =>
    match nth_error reqs i with
    | None => Panic PIndex
    | Some req => if same_type_disjoint rsp req then Err ReqSelectedAlgorithmNotRequested
                  else ensure_response_loop t (S i) reqs rsp
    end
  end.
(** src/requester/algorithms.rs:113-117 *)
Fixpoint ensure_responses (todo i : nat) (requested : NegotiateAlgorithms) (rsps : list AlgorithmRequest)
  : res RequesterError unit :=
  match todo with
  | O => Ok tt
  | S t =>
    match nth_error rsps i with
    | None => Panic PIndex
    | Some rsp =>
      rbind (ensure_response_loop (N.to_nat (na_num_requests requested)) 0 (na_requests requested) rsp)
            (fun _ => ensure_responses t (S i) requested rsps)
    end
  end.
(** src/requester/algorithms.rs:77-120 *)
Definition ensure_valid_algorithms_selected (s : ReqAlgState) (a : Algorithms) : res RequesterError unit :=
  match qa_negotiate s with
  | None => Panic PUnwrap
  | Some requested =>
    if negb (na_measurement_spec requested =? al_measurement_spec a)%N
    then Err ReqSelectedAlgorithmNotRequested
    else if (N.land (na_base_asym_algo requested) (al_base_asym a) =? 0)%N
    then Err ReqSelectedAlgorithmNotRequested
    else if (N.land (na_base_hash_algo requested) (al_base_hash a) =? 0)%N
    then Err ReqSelectedAlgorithmNotRequested
    else if (N.land (na_base_hash_algo requested) (al_measurement_hash a) =? 0)%N
    then Err ReqSelectedAlgorithmNotRequested
    else ensure_responses (N.to_nat (al_num_responses a)) 0 requested (al_responses a)
  end.

(** src/requester/algorithms.rs:62-73: the updated state is returned. *)
Definition req_alg_handle_msg (s : ReqAlgState) (buf : list N) : T ReqAlgState :=
  lift (req_expect Algorithms_id buf) ;;;
  body <- lift (body_of buf) ;;
  algorithms <- map_err ReqParseAlgorithms (lift (algorithms_parse_body body)) ;;
  lift (ensure_valid_algorithms_selected s algorithms) ;;;
  tr_extend buf ;;;
  ret (mkReqAlg (qa_version s) (qa_requester_ct s) (qa_requester_cap s) (qa_responder_ct s)
                (qa_responder_cap s) (qa_negotiate s) (Some algorithms)).

(** src/requester/id_auth.rs:46-59 *)
Definition req_id_from (s : ReqAlgState) : res RequesterError ReqIdState :=
  match qa_algorithms s with
  | Some a => Ok (mkReqId (qa_version s) (qa_requester_ct s) (qa_requester_cap s) (qa_responder_ct s)
                          (qa_responder_cap s) a None None)
  | None => Panic PUnwrap
  end.

(** src/requester/id_auth.rs:82-94 *)
Definition handle_digests (s : ReqIdState) (buf : list N) : T ReqIdState :=
  lift (req_expect Digests_id buf) ;;;
  digest_size <- lift (get_digest_size (al_base_hash (qi_algorithms s))) ;;
  body <- lift (body_of buf) ;;
  digests <- map_err ReqRead (lift (digests_parse_body digest_size body)) ;;
  tr_extend buf ;;;
  ret (mkReqId (qi_version s) (qi_requester_ct s) (qi_requester_cap s) (qi_responder_ct s)
               (qi_responder_cap s) (qi_algorithms s) (Some digests) (qi_cert s)).

(** src/requester/id_auth.rs:119-129 *)
Definition handle_certificate (s : ReqIdState) (buf : list N) : T ReqIdState :=
  lift (req_expect Certificate_id buf) ;;;
  body <- lift (body_of buf) ;;
  cert <- map_err ReqParseCert (lift (certificate_parse_body body)) ;;
  tr_extend buf ;;;
  ret (mkReqId (qi_version s) (qi_requester_ct s) (qi_requester_cap s) (qi_responder_ct s)
               (qi_responder_cap s) (qi_algorithms s) (qi_digests s) (Some cert)).

(** src/requester/challenge.rs:90-105 *)
Definition req_chal_from (s : ReqIdState) : res RequesterError ReqChalState :=
  match qi_cert s with
  | Some c => Ok (mkReqChal (qi_version s) (qi_requester_ct s) (qi_requester_cap s) (qi_responder_ct s)
                            (qi_responder_cap s) (qi_algorithms s) (cert_slot c) (cert_chain c)
                            (cert_portion_length c) None)
  | None => Panic PUnwrap
  end.

(** src/requester/challenge.rs:35, 38 *)
Definition UNIX_TIME : N := 1638316800.
Definition PROVISIONED_MASK : N := 0x0F.

(** src/requester/challenge.rs:185-214 *)
Definition verify_cert_chain_and_signature (s : ReqChalState) (digest_size : nat) (m2_hash signature root : list N)
           (seconds : N) : res RequesterError unit :=
  if length (qh_cert_chain s) <? N.to_nat (qh_cert_chain_size s) then Panic PIndex
  else
  let cert_chain_buf := firstn (N.to_nat (qh_cert_chain_size s)) (qh_cert_chain s) in
  rbind (rmap_err ReqParseCertChain (chain_parse cert_chain_buf digest_size)) (fun chain =>
  rbind (rmap_err req_of_pki (new_end_entity_cert (cc_leaf_cert chain))) (fun cert =>
  rbind (rmap_err req_of_pki
           (verify_chain_of_trust cert (al_base_asym (qh_algorithms s)) (cc_intermediates chain)
                                  root seconds)) (fun _ =>
  rbind (verify_signature cert (al_base_asym (qh_algorithms s)) m2_hash signature) (fun ok : bool =>
  if ok then Ok tt else Err (ReqChallengeAuth InvalidSignature))))).

(** src/requester/challenge.rs:127-183 *)
Definition req_chal_handle_msg (s : ReqChalState) (root : list N) (buf : list N) : T unit :=
  lift (req_expect ChallengeAuth_id buf) ;;;
  let hash_algo := al_base_hash (qh_algorithms s) in
  digest_size <- lift (get_digest_size hash_algo) ;;
  signature_size <- lift (get_signature_size (al_base_asym (qh_algorithms s))) ;;
  body <- lift (body_of buf) ;;
  rsp <- map_err ReqParseChallengeAuth (lift (challenge_auth_parse_body body digest_size signature_size)) ;;
  if negb (ca_slot rsp =? qh_cert_slot s)%N then err (ReqChallengeAuth IncorrectSlot)
  else
  (if negb (ca_slot rsp =? PROVISIONED_MASK)%N then
     bit <- lift (shl8 overflow_checks 1 (N.to_nat (ca_slot rsp))) ;;
     (if (N.land (ca_slot_mask rsp) bit =? 0)%N then err (ReqChallengeAuth SlotNotInMask) else ret tt)
   else ret tt) ;;;
  (if length (qh_cert_chain s) <? N.to_nat (qh_cert_chain_size s) then pnc PIndex else ret tt) ;;;
  digest <- lift (provided_digest hash_algo (firstn (N.to_nat (qh_cert_chain_size s)) (qh_cert_chain s))) ;;
  if negb (list_eqb (ca_cert_chain_hash rsp) digest) then err (ReqChallengeAuth DigestMismatch)
  else
  (if length buf <? signature_size then pnc POverflow else ret tt) ;;;
  let sig_start := length buf - signature_size in
  tr_extend (firstn sig_start buf) ;;;
  tr <- gets t_get ;;
  m2_hash <- lift (provided_digest hash_algo tr) ;;
  lift (verify_cert_chain_and_signature s digest_size m2_hash (ca_signature rsp) root UNIX_TIME).

(** src/requester.rs:248-295 *)
Definition req_dispatch (st : ReqStates) (root rsp : list N) : T ReqStates :=
  match st with
  | ReqVersion => s <- req_version_handle_msg rsp ;; ret (ReqCapabilities s)
  | ReqCapabilities s => s <- req_cap_handle_msg s rsp ;; ret (ReqAlgorithms s)
  | ReqAlgorithms s =>
    s <- req_alg_handle_msg s rsp ;;
    if contains (qa_requester_cap s) ReqFlags_CERT_CAP && contains (qa_responder_cap s) RspFlags_CERT_CAP
    then s <- lift (req_id_from s) ;; ret (ReqIdAuth s)
    else ret ReqNewSession
  | ReqIdAuth s =>
    match qi_digests s with
    | None => s <- handle_digests s rsp ;; ret (ReqIdAuth s)
    | Some _ =>
      s <- handle_certificate s rsp ;;
      if contains (qi_requester_cap s) ReqFlags_CHAL_CAP && contains (qi_responder_cap s) RspFlags_CHAL_CAP
      then s <- lift (req_chal_from s) ;; ret (ReqChallenge s)
      else ret ReqNewSession
    end
  | ReqChallenge s => req_chal_handle_msg s root rsp ;;; ret ReqNewSession
  | ReqError | ReqNewSession => pnc PUnimplemented
  end.

(** src/requester.rs:51-63, 69-71.  The slots are stored but never used by the
    requester code and are dropped here; Accessors.v has the requester with them. *)
Record Requester := mkRequester {
  req_root : list N; req_transcript : Transcript; req_state : option ReqStates
}.

(** src/requester.rs:87-99 *)
Definition requester_new (root : list N) : Requester :=
  mkRequester root transcript_new (Some ReqVersion).

(** src/requester.rs:107-116: result, new contents of the caller's buffer, new
    requester.  [state.as_mut()] leaves the state in place also on a panic. *)
Definition requester_next_request (R : Requester) (fresh buf : list N)
  : res RequesterError (list N) * list N * Requester :=
  match req_state R with
  | None => (Panic PUnwrap, buf, R)
  | Some ReqNewSession => (Err ReqInitializationComplete, buf, R)
  | Some st =>
    let '(r, c) := write_req st fresh (mkQCtx buf (req_transcript R) st) in
    (r, q_buf c, mkRequester (req_root R) (q_tr c) (Some (q_state c)))
  end.

(** src/requester.rs:123-146 *)
Definition requester_handle_msg (R : Requester) (rsp : list N) : res RequesterError bool * Requester :=
  match req_state R with
  | None => (Panic PUnwrap, R)
  | Some st =>
    let '(r, t) := req_dispatch st (req_root R) rsp (req_transcript R) in
    match r with
    | Ok st' => (Ok (match st' with ReqNewSession => true | _ => false end),
                 mkRequester (req_root R) t (Some st'))
    | Err e => (Err e, mkRequester (req_root R) t (Some ReqError))
    | Panic p => (Panic p, mkRequester (req_root R) t None)
    end
  end.

(** src/requester.rs:76-84, 148-151: begin_session consumes the requester and
    wraps its data; the state is not looked at. *)
Record RequesterSession := mkRequesterSession { rs_data : Requester }.
Definition requester_begin_session (R : Requester) : RequesterSession := mkRequesterSession R.

(** src/requester.rs:153-156: [state()], which unwraps. *)
Definition requester_state (R : Requester) : res Empty_set ReqStates :=
  match req_state R with Some st => Ok st | None => Panic PUnwrap end.

(** src/requester.rs:298-308 *)
Definition req_state_name (s : ReqStates) : string :=
  match s with
  | ReqError => "Error" | ReqVersion => "Version" | ReqCapabilities _ => "Capabilities"
  | ReqAlgorithms _ => "Algorithms" | ReqIdAuth _ => "IdAuth" | ReqChallenge _ => "Challenge"
  | ReqNewSession => "NewSession"
  end%string.

End Requester.
