(** Model of src/responder.rs and src/responder/*.rs. *)
From Verif Require Import Base Config Encoding MsgCommon MsgVersion MsgCapabilities MsgAlgorithms
     MsgDigest MsgCertificates MsgChallenge MsgError Transcript Crypto.

(** src/msgs/mod.rs:42 *)
Definition HEADER_SIZE : nat := 2.

Section Responder.
Context {cfg : Config} {cr : Crypto}.

(** src/responder/error.rs:16-52 *)
Inductive ResponderError :=
| RspParseHeader
| RspRead (e : ReadError)
| RspBufferFull
| RspUnexpectedMsgCode (expected got : N)
| RspInvalidSlot
| RspSigningFailed
| RspWriteCertChain (e : WriteCertificateChainError)
| RspParseNegotiateAlgorithms (e : ParseNegotiateAlgorithmsError)
| RspParseGetCapabilities (e : ParseCapabilitiesError)
| RspParseCapability
| RspParseChallenge (e : ParseChallengeError)
| RspWriteChallengeAuth (e : WriteChallengeAuthError).

(** src/responder/error.rs:54-58, 72-76, 90-94 *)
Definition rsp_of_full (e : BufferFullError) : ResponderError := RspBufferFull.
Definition rsp_of_header (e : ParseHeaderError) : ResponderError := RspParseHeader.

(** src/responder/error.rs:152-160 *)
Definition read_error_to_msgs_error (e : ReadError) : ErrorMsg :=
  match e with
  | BufferEmpty => RequestTooLarge
  | ReservedByteNotZero => InvalidRequest
  | Unaligned | TooManyBits | TypeConversionFailed => Unspecified
  end.

(** src/responder/error.rs:108-150 *)
Definition responder_error_to_msg (e : ResponderError) : ErrorMsg :=
  match e with
  | RspParseHeader => UnexpectedRequest
  | RspBufferFull => LargeResponse 0
  | RspRead e => read_error_to_msgs_error e
  | RspUnexpectedMsgCode _ _ => UnexpectedRequest
  | RspInvalidSlot => InvalidRequest
  | RspSigningFailed => Unspecified
  | RspWriteCertChain _ => LargeResponse 0
  | RspParseCapability => Unspecified
  | RspParseGetCapabilities CapInvalidBitsSet => InvalidRequest
  | RspParseGetCapabilities (CapRead e) => read_error_to_msgs_error e
  | RspParseNegotiateAlgorithms (PNARead e) => read_error_to_msgs_error e
  | RspParseNegotiateAlgorithms PNATooLarge => RequestTooLarge
  | RspParseNegotiateAlgorithms _ => InvalidRequest
  | RspParseChallenge InvalidMeasurementHashType => InvalidRequest
  | RspParseChallenge (PChRead e) => read_error_to_msgs_error e
  | RspWriteChallengeAuth WCABufferFull => ResponseTooLarge 0
  | RspWriteChallengeAuth _ => InvalidRequest
  end.

(** What a state handler may mutate: the response buffer and the transcript. *)
Record Ctx := mkCtx { c_rsp : list N; c_tr : Transcript }.
Definition H A := M Ctx ResponderError A.

Definition c_extend (bs : list N) : H unit := fun c =>
  let '(r, t) := map_err rsp_of_full (t_extend bs) (c_tr c) in (r, mkCtx (c_rsp c) t).
Definition c_clear : H unit := fun c => (Ok tt, mkCtx (c_rsp c) (t_clear (c_tr c))).
(** [msg.write(rsp)?]: the buffer keeps what was written even on error. *)
Definition c_write {E} (from : E -> ResponderError) (w : list N -> res E nat * list N) : H nat := fun c =>
  let '(r, buf) := w (c_rsp c) in (rmap_err from r, mkCtx buf (c_tr c)).
(** [&rsp[..size]] *)
Definition c_prefix (size : nat) : H (list N) := fun c =>
  if size <=? length (c_rsp c) then (Ok (firstn size (c_rsp c)), c) else (Panic PIndex, c).
(** [&req[HEADER_SIZE..]] *)
Definition body_of {E} (req : list N) : res E (list N) :=
  if HEADER_SIZE <=? length req then Ok (skipn HEADER_SIZE req) else Panic PIndex.

(** src/responder/capabilities.rs:14-20.  [Option] fields as in the code. *)
Record RspCapState := mkRspCap {
  rc_requester_ct : option N; rc_requester_cap : option N;
  rc_responder_ct : option N; rc_responder_cap : option N
}.
(** src/responder/algorithms.rs:13-19 *)
Record RspAlgState := mkRspAlg {
  ra_requester_ct : N; ra_requester_cap : N; ra_responder_ct : N; ra_responder_cap : N;
  ra_algorithms : option Algorithms
}.
(** src/responder/id_auth.rs:34-40; src/responder/challenge.rs:21-27 has the
    same fields. *)
Record RspIdState := mkRspId {
  ri_requester_ct : N; ri_requester_cap : N; ri_responder_ct : N; ri_responder_cap : N;
  ri_algorithms : Algorithms
}.

(** src/responder.rs:51-60 *)
Inductive RspStates :=
| RspError
| RspVersion
| RspCapabilities (s : RspCapState)
| RspAlgorithms (s : RspAlgState)
| RspIdAuth (s : RspIdState)
| RspChallenge (s : RspIdState).

(** src/responder.rs:245-254 *)
Definition rsp_expect (id : MsgId) (buf : list N) : res ResponderError unit :=
  match parse_header id buf with
  | Ok true => Ok tt
  | Ok false =>
    match nth_error buf 0 with
    | Some b => Err (RspUnexpectedMsgCode (SPDM_CODE id) b)
    | None => Panic PIndex
    end
  | Err e => Err (rsp_of_header e)
  | Panic p => Panic p
  end.

(** src/responder/capabilities.rs:24-26 (derived Default) *)
Definition rsp_cap_new : RspCapState := mkRspCap None None None None.

(** src/responder/version.rs:30-46 *)
Definition handle_get_version (req : list N) : H (nat * RspStates) :=
  body <- lift (body_of req) ;;
  map_err RspRead (lift (get_version_parse_body body)) ;;;
  c_clear ;;;
  c_extend req ;;;
  size <- c_write rsp_of_full (write_msg Version_id (fun e => e) (version_write_body version_default)) ;;
  out <- c_prefix size ;;
  c_extend out ;;;
  ret (size, RspCapabilities rsp_cap_new).

(** src/responder/version.rs:14-28 *)
Definition version_handle_msg (req : list N) : H (nat * RspStates) :=
  match parse_header GetVersion_id req with
  | Ok true => handle_get_version req
  | Ok false =>
    match nth_error req 0 with
    | Some b => err (RspUnexpectedMsgCode (SPDM_CODE GetVersion_id) b)
    | None => pnc PIndex
    end
  | Err e => err (rsp_of_header e)
  | Panic p => pnc p
  end.

(** src/responder.rs:221-237, followed by the rest of the handler. *)
Definition reset_on_get_version (req : list N) (rest : H (nat * RspStates)) : H (nat * RspStates) :=
  match parse_header GetVersion_id req with
  | Ok true => version_handle_msg req
  | Err e => err (rsp_of_header e)
  | Panic p => pnc p
  | Ok false => rest
  end.

(** [for s in config::CAPABILITIES { flags |= s.parse()?; }] *)
Fixpoint flags_of_strings {E} (parse : string -> option N) (e : E) (l : list string) (flags : N)
  : res E N :=
  match l with
  | [] => Ok flags
  | s :: r => match parse s with
              | Some f => flags_of_strings parse e r (N.lor flags f)
              | None => Err e
              end
  end.

(** src/responder/capabilities.rs:59-70 *)
Definition config_to_capabilities_msg : res ResponderError Capabilities :=
  rmap (mkCapabilities 12) (flags_of_strings RspFlags_from_str RspParseCapability CAPABILITIES 0).

(** src/responder/algorithms.rs:21-31 *)
Definition rsp_alg_from (s : RspCapState) : res ResponderError RspAlgState :=
  match rc_requester_ct s, rc_requester_cap s, rc_responder_ct s, rc_responder_cap s with
  | Some a, Some b, Some c, Some d => Ok (mkRspAlg a b c d None)
  | _, _, _, _ => Panic PUnwrap
  end.

(** src/responder/capabilities.rs:33-54 *)
Definition capabilities_handle_msg (s : RspCapState) (req : list N) : H (nat * RspStates) :=
  reset_on_get_version req (
  lift (rsp_expect GetCapabilities_id req) ;;;
  body <- lift (body_of req) ;;
  get_cap <- map_err RspParseGetCapabilities (lift (get_capabilities_parse_body body)) ;;
  c_extend req ;;;
  supported <- lift config_to_capabilities_msg ;;
  size <- c_write rsp_of_full (write_msg Capabilities_id (fun e => e) (capabilities_write_body supported)) ;;
  out <- c_prefix size ;;
  c_extend out ;;;
  s' <- lift (rsp_alg_from (mkRspCap (Some (gc_ct_exponent get_cap)) (Some (gc_flags get_cap))
                                     (Some (cap_ct_exponent supported)) (Some (cap_flags supported)))) ;;
  ret (size, RspAlgorithms s')).

(** [X::from_bits(1 << first_bit_set).unwrap()] where [first_bit_set =
    bits.trailing_zeros()] of a [w]-bit set: shifting by [w] panics with
    overflow checks and shifts by 0 without. *)
Definition select_lowest {E} (w : nat) (all bits : N) : res E N :=
  let k := trailing_zeros w bits in
  rbind (if k <? w then Ok k else if overflow_checks then Panic POverflow else Ok (k mod w)) (fun k =>
  match from_bits all (N.shiftl 1 (N.of_nat k)) with
  | Some b => Ok b
  | None => Panic PUnwrap
  end).

(** One arm of src/responder/algorithms.rs:83-121; the supported sets are u16
    (src/msgs/algorithms.rs:137, 163, 186, 214). *)
Definition choose_one {E} (a : AlgorithmRequest) : res E AlgorithmRequest :=
  match a with
  | Dhe s => rmap Dhe (select_lowest 16 Dhe_all s)
  | Aead s => rmap Aead (select_lowest 16 Aead_all s)
  | ReqBaseAsym s => rmap ReqBaseAsym (select_lowest 16 ReqBaseAsym_all s)
  | KeySchedule s => rmap KeySchedule (select_lowest 16 KeySchedule_all s)
  end.

(** src/responder/algorithms.rs:82-121: [for i in 0..num { rsp[i] = choose(req[i]) }] *)
Fixpoint choose_loop {E} (todo i : nat) (reqs rsps : list AlgorithmRequest)
  : res E (list AlgorithmRequest) :=
  match todo with
  | O => Ok rsps
  | S t =>
    match nth_error reqs i with
    | None => Panic PIndex
    | Some a =>
      rbind (choose_one a) (fun b =>
      if i <? length rsps then choose_loop t (S i) reqs (upd rsps i b) else Panic PIndex)
    end
  end.

(** src/responder/algorithms.rs:66-124 *)
Definition choose_algorithms {E} (req : NegotiateAlgorithms) : res E Algorithms :=
  rbind (select_lowest 32 BaseHashAlgo_all (na_base_hash_algo req)) (fun h =>
  rbind (select_lowest 32 BaseAsymAlgo_all (na_base_asym_algo req)) (fun a =>
  rbind (choose_loop (N.to_nat (na_num_requests req)) 0 (na_requests req)
                     (al_responses algorithms_default)) (fun rs =>
  Ok (mkAlgorithms (na_measurement_spec req) h a h (na_num_requests req) rs)))).

(** src/responder/id_auth.rs:42-52 *)
Definition rsp_id_from (s : RspAlgState) : res ResponderError RspIdState :=
  match ra_algorithms s with
  | Some a => Ok (mkRspId (ra_requester_ct s) (ra_requester_cap s) (ra_responder_ct s) (ra_responder_cap s) a)
  | None => Panic PUnwrap
  end.

(** src/responder/algorithms.rs:37-55 *)
Definition algorithms_handle_msg (s : RspAlgState) (req : list N) : H (nat * RspStates) :=
  reset_on_get_version req (
  lift (rsp_expect NegotiateAlgorithms_id req) ;;;
  body <- lift (body_of req) ;;
  req_msg <- map_err RspParseNegotiateAlgorithms (lift (negotiate_algorithms_parse_body body)) ;;
  c_extend req ;;;
  algorithms <- lift (choose_algorithms req_msg) ;;
  size <- c_write rsp_of_full (write_msg Algorithms_id (fun e => e) (algorithms_write_body algorithms)) ;;
  out <- c_prefix size ;;
  c_extend out ;;;
  s' <- lift (rsp_id_from (mkRspAlg (ra_requester_ct s) (ra_requester_cap s) (ra_responder_ct s)
                                    (ra_responder_cap s) (Some algorithms))) ;;
  ret (size, RspIdAuth s')).

(** src/responder/id_auth.rs:21-29: [for i in 0..NUM_SLOTS] over an array of
    NUM_SLOTS cells, i.e. over all its cells. *)
Fixpoint create_slot_mask_from {E A} (i : nat) (slots : list (option A)) (bits : N) : res E N :=
  match slots with
  | [] => Ok bits
  | Some _ :: r => rbind (shl8 overflow_checks 1 i) (fun b => create_slot_mask_from (S i) r (N.lor bits b))
  | None :: r => create_slot_mask_from (S i) r bits
  end.
Definition create_slot_mask {E A} (slots : list (option A)) : res E N := create_slot_mask_from 0 slots 0%N.

(** [cert_chain.write(&mut Writer::new(&mut buf))?]: size and new buffer. *)
Definition chain_write_to (buf : list N) (c : CertificateChain) : res WriteCertificateChainError nat * list N :=
  let '(r, w) := chain_write c (writer_new buf) in (r, w_buf w).

(** src/responder/id_auth.rs:132-153: one buffer is reused for all slots. *)
Fixpoint hash_cert_chains (algo : N) (chains : list (option CertificateChain)) (buf : list N)
  : res ResponderError (list (option (list N))) :=
  match chains with
  | [] => Ok []
  | None :: r => rmap (cons None) (hash_cert_chains algo r buf)
  | Some c :: r =>
    let '(w, buf') := chain_write_to buf c in
    rbind (rmap_err RspWriteCertChain w) (fun size =>
    if length buf' <? size then Panic PIndex else
    rbind (provided_digest algo (firstn size buf')) (fun d =>
    rbind (digest_size (length d)) (fun _ =>
    rmap (cons (Some d)) (hash_cert_chains algo r buf'))))
  end.

(** src/responder/id_auth.rs:113-130 *)
Definition handle_get_digests (s : RspIdState) (chains : list (option CertificateChain)) (req : list N)
  : H (nat * RspStates) :=
  slot_mask <- lift (create_slot_mask chains) ;;
  digests <- lift (hash_cert_chains (al_base_hash (ri_algorithms s)) chains
                                    (repeat 0%N MAX_CERT_CHAIN_SIZE)) ;;
  size <- c_write rsp_of_full (write_msg Digests_id (fun e => e)
                                 (digests_write_body (mkDigests slot_mask digests))) ;;
  c_extend req ;;;
  out <- c_prefix size ;;
  c_extend out ;;;
  ret (size, RspIdAuth s).

(** src/responder/id_auth.rs:78-111 *)
Definition handle_get_certificate (s : RspIdState) (chains : list (option CertificateChain)) (req : list N)
  : H (nat * RspStates) :=
  body <- lift (body_of req) ;;
  get_cert <- map_err RspRead (lift (get_certificate_parse_body body)) ;;
  if NUM_SLOTS <=? N.to_nat (gcert_slot get_cert) then err RspInvalidSlot
  else
  let zeros := repeat 0%N MAX_CERT_CHAIN_SIZE in
  '(portion_length, cert_chain) <-
    lift (match nth_error chains (N.to_nat (gcert_slot get_cert)) with
          | None => Panic PIndex
          | Some None => Ok (0%N, zeros)
          | Some (Some c) =>
            let '(w, buf) := chain_write_to zeros c in
            rbind (rmap_err RspWriteCertChain w) (fun n => Ok ((N.of_nat n mod 65536)%N, buf))
          end) ;;
  let cert := mkCertificate (gcert_slot get_cert) portion_length 0 cert_chain in
  size <- c_write rsp_of_full (write_msg Certificate_id (fun e => e) (certificate_write_body cert)) ;;
  c_extend req ;;;
  out <- c_prefix size ;;
  c_extend out ;;;
  ret (size, RspChallenge s).

(** src/responder/id_auth.rs:59-76 *)
Definition id_auth_handle_msg (s : RspIdState) (chains : list (option CertificateChain)) (req : list N)
  : H (nat * RspStates) :=
  reset_on_get_version req (
  is_digests <- map_err rsp_of_header (lift (parse_header GetDigests_id req)) ;;
  if (is_digests : bool) then handle_get_digests s chains req
  else
  lift (rsp_expect GetCertificate_id req) ;;;
  handle_get_certificate s chains req).

(** What the outside world supplies to one handle_msg call: OsRng's bytes and
    the signer's randomness. *)
Record Rnd := mkRnd { rnd_nonce : list N; rnd_sign : list N }.

(** [rsp[from..to].copy_from_slice(src)] *)
Definition c_copy (from to : nat) (src : list N) : H unit := fun c =>
  if (from <=? to) && (to <=? length (c_rsp c)) && (length src =? to - from)
  then (Ok tt, mkCtx (firstn from (c_rsp c) ++ src ++ skipn to (c_rsp c)) (c_tr c))
  else (Panic PIndex, c).

(** [slots.get(slot)] matched against [Some(Some(_))] *)
Definition slot_get {A} (slots : list (option A)) (slot : N) : option A :=
  match nth_error slots (N.to_nat slot) with Some (Some x) => Some x | _ => None end.

(** src/responder/challenge.rs:45-134 *)
Definition challenge_handle_msg (s : RspIdState) (slots : list (option FilledSlot)) (rnd : Rnd)
           (req : list N) : H (nat * RspStates) :=
  reset_on_get_version req (
  lift (rsp_expect Challenge_id req) ;;;
  let hash_algo := al_base_hash (ri_algorithms s) in
  digest_size <- lift (get_digest_size hash_algo) ;;
  signature_size <- lift (get_signature_size (al_base_asym (ri_algorithms s))) ;;
  body <- lift (body_of req) ;;
  req_msg <- map_err RspParseChallenge (lift (challenge_parse_body body)) ;;
  slot <- lift (of_option RspInvalidSlot (slot_get slots (ch_slot req_msg))) ;;
  cert_chain_digest <-
    lift (let '(w, buf) := chain_write_to (repeat 0%N MAX_CERT_CHAIN_SIZE) (fs_chain slot) in
          rbind (rmap_err RspWriteCertChain w) (fun size =>
          if length buf <? size then Panic PIndex
          else provided_digest hash_algo (firstn size buf))) ;;
  let use_mutual_auth := contains (ri_requester_cap s) ReqFlags_MUT_AUTH_CAP
                         && contains (ri_responder_cap s) RspFlags_MUT_AUTH_CAP in
  let measurement_summary_hash := repeat 0%N digest_size in
  c_extend req ;;;
  slot_mask <- lift (create_slot_mask slots) ;;
  auth <- lift (challenge_auth_new (ch_slot req_msg) slot_mask use_mutual_auth cert_chain_digest
                                   (nonce_new (rnd_nonce rnd)) measurement_summary_hash []
                                   (repeat 0%N signature_size)) ;;
  size <- c_write RspWriteChallengeAuth
            (write_msg ChallengeAuth_id wca_from (challenge_auth_write_body auth)) ;;
  (* usize subtraction: an underflow would panic, or wrap and then panic in the
     slicing; either way a panic, and RspPanic.v proves it unreachable. *)
  (if size <? signature_size then pnc POverflow else ret tt) ;;;
  let sig_start := size - signature_size in
  out <- c_prefix sig_start ;;
  c_extend out ;;;
  tr <- gets (fun c => t_get (c_tr c)) ;;
  m1_hash <- lift (provided_digest hash_algo tr) ;;
  signature <- map_err (fun _ => RspSigningFailed) (lift (fs_signer slot (rnd_sign rnd) m1_hash)) ;;
  c_copy sig_start size signature ;;;
  ret (size, RspChallenge s)).

(** src/responder.rs:93-121: the dispatch on the state.  The cert chains of the
    slots are cloned for the IdAuth state. *)
Definition rsp_dispatch (st : RspStates) (slots : list (option FilledSlot)) (rnd : Rnd) (req : list N)
  : H (nat * RspStates) :=
  match st with
  | RspVersion => version_handle_msg req
  | RspCapabilities s => capabilities_handle_msg s req
  | RspAlgorithms s => algorithms_handle_msg s req
  | RspIdAuth s => id_auth_handle_msg s (map (option_map fs_chain) slots) req
  | RspChallenge s => challenge_handle_msg s slots rnd req
  | RspError => pnc PUnimplemented
  end.

(** src/responder.rs:156-162.  [None] is the state left behind by a panic. *)
Record Responder := mkResponder {
  rsp_slots : list (option FilledSlot); rsp_transcript : Transcript; rsp_state : option RspStates
}.

(** What a handle_msg call does: returns (bytes, Ok/Err) or panics. *)
Inductive Reply :=
| Replied (out : list N) (result : res ResponderError unit)
| Panicked (p : panic).

(** src/responder.rs:93-139 after the dispatch (121-138) *)
Definition rsp_finish (r : res ResponderError (nat * RspStates)) (rsp : list N)
  : Reply * list N * option RspStates :=
  match r with
  | Ok (size, st) =>
    if size <=? length rsp then (Replied (firstn size rsp) (Ok tt), rsp, Some st)
    else (Panicked PIndex, rsp, None)
  | Err e =>
    let '(w, rsp') := write_msg Error_id (fun e => e) (error_write_body (responder_error_to_msg e)) rsp in
    match w with
    | Ok size => if size <=? length rsp' then (Replied (firstn size rsp') (Err e), rsp', Some RspError)
                 else (Panicked PIndex, rsp', None)
    | Err _ => (Replied [] (Err e), rsp', Some RspError)
    | Panic p => (Panicked p, rsp', None)
    end
  | Panic p => (Panicked p, rsp, None)
  end.

(** src/responder.rs:165-173 *)
Definition responder_new (slots : list (option FilledSlot)) : Responder :=
  mkResponder slots transcript_new (Some RspVersion).

(** src/responder.rs:177-187: reply, new contents of the caller's response
    buffer, new responder. *)
Definition responder_handle_msg (R : Responder) (rnd : Rnd) (req rsp : list N)
  : Reply * list N * Responder :=
  match rsp_state R with
  | None => (Panicked PUnwrap, rsp, R)
  | Some st =>
    let '(r, c) := rsp_dispatch st (rsp_slots R) rnd req (mkCtx rsp (rsp_transcript R)) in
    let '(reply, rsp', st') := rsp_finish r (c_rsp c) in
    (reply, rsp', mkResponder (rsp_slots R) (c_tr c) st')
  end.

(** src/responder.rs:208-211 *)
Definition responder_reset (R : Responder) : Responder :=
  mkResponder (rsp_slots R) (t_clear (rsp_transcript R)) (Some RspVersion).

(** src/responder.rs:142-151 *)
Definition rsp_state_name (s : RspStates) : string :=
  match s with
  | RspError => "Error" | RspVersion => "Version" | RspCapabilities _ => "Capabilities"
  | RspAlgorithms _ => "Algorithms" | RspIdAuth _ => "IdAuth" | RspChallenge _ => "Challenge"
  end%string.

End Responder.
