(** The endpoints with a random source that may fail.  In Responder.v and
    Requester.v the nonce is an argument, so there the source always works; here it
    is [None] when the operating system supplies no entropy, on which
    [OsRng.fill_bytes] panics. *)
From Verif Require Import Base Config Encoding MsgCommon MsgCapabilities MsgAlgorithms MsgChallenge MsgError Transcript Crypto Responder Requester.

Section Entropy.
Context {cfg : Config} {cr : Crypto}.

(** src/crypto/nonce.rs:20-24, and 40-42 without the rand feature *)
Definition nonce_draw {E} (source : option (list N)) : res E (list N) :=
  if feature_rand then match source with Some fresh => Ok fresh | None => Panic PEntropy end else Ok [].

(** src/responder/challenge.rs:45-134: [Nonce::new()] at line 101, after the slot
    mask and before the message is built.  [sign] is the signer's randomness. *)
Definition challenge_handle_msg_e (s : RspIdState) (slots : list (option FilledSlot)) (source : option (list N)) (sign : list N)
           (req : list N) : H (nat * RspStates) :=
  reset_on_get_version req (
  lift (rsp_expect Challenge_id req) ;;;
  let hash_algo := al_base_hash (ri_algorithms s) in
  digest_size <- lift (get_digest_size hash_algo) ;;
  signature_size <- lift (get_signature_size (al_base_asym (ri_algorithms s))) ;;
  body <- lift (body_of req) ;;
  req_msg <- map_err RspParseChallenge (lift (challenge_parse_body body)) ;;
  slot <- lift (of_option RspInvalidSlot (slot_get slots (ch_slot req_msg))) ;;
  cert_chain_digest <-
    lift (let '(w, buf) := chain_write_to (repeat 0%N MAX_CERT_CHAIN_SIZE) (fs_chain slot) in
          rbind (rmap_err RspWriteCertChain w) (fun size =>
          if length buf <? size then Panic PIndex
          else provided_digest hash_algo (firstn size buf))) ;;
  let use_mutual_auth := contains (ri_requester_cap s) ReqFlags_MUT_AUTH_CAP
                         && contains (ri_responder_cap s) RspFlags_MUT_AUTH_CAP in
  let measurement_summary_hash := repeat 0%N digest_size in
  c_extend req ;;;
  slot_mask <- lift (create_slot_mask slots) ;;
  nonce <- lift (nonce_draw source) ;;
  auth <- lift (challenge_auth_new (ch_slot req_msg) slot_mask use_mutual_auth cert_chain_digest
                                   nonce measurement_summary_hash []
                                   (repeat 0%N signature_size)) ;;
  size <- c_write RspWriteChallengeAuth
            (write_msg ChallengeAuth_id wca_from (challenge_auth_write_body auth)) ;;
  (if size <? signature_size then pnc POverflow else ret tt) ;;;
  let sig_start := size - signature_size in
  out <- c_prefix sig_start ;;
  c_extend out ;;;
  tr <- gets (fun c => t_get (c_tr c)) ;;
  m1_hash <- lift (provided_digest hash_algo tr) ;;
  signature <- map_err (fun _ => RspSigningFailed) (lift (fs_signer slot sign m1_hash)) ;;
  c_copy sig_start size signature ;;;
  ret (size, RspChallenge s)).

(** src/responder.rs:93-121: only the challenge state draws a nonce. *)
Definition rsp_dispatch_e (st : RspStates) (slots : list (option FilledSlot)) (source : option (list N)) (sign : list N) (req : list N)
  : H (nat * RspStates) :=
  match st with
  | RspVersion => version_handle_msg req
  | RspCapabilities s => capabilities_handle_msg s req
  | RspAlgorithms s => algorithms_handle_msg s req
  | RspIdAuth s => id_auth_handle_msg s (map (option_map fs_chain) slots) req
  | RspChallenge s => challenge_handle_msg_e s slots source sign req
  | RspError => pnc PUnimplemented
  end.
(** src/responder.rs:177-187: a panic leaves the state taken. *)
Definition responder_handle_msg_e (R : Responder) (source : option (list N)) (sign req rsp : list N)
  : Reply * list N * Responder :=
  match rsp_state R with
  | None => (Panicked PUnwrap, rsp, R)
  | Some st =>
    let '(r, c) := rsp_dispatch_e st (rsp_slots R) source sign req (mkCtx rsp (rsp_transcript R)) in
    let '(reply, rsp', st') := rsp_finish r (c_rsp c) in
    (reply, rsp', mkResponder (rsp_slots R) (c_tr c) st')
  end.

(** src/requester/challenge.rs:109-122: [Challenge::new] draws the nonce
    (src/msgs/challenge.rs:72-74) before the state is changed. *)
Definition chal_write_msg_e (s : ReqChalState) (source : option (list N)) : Q (list N) :=
  nonce <- lift (nonce_draw source) ;;
  let challenge := mkChallenge (qh_cert_slot s) MHNone nonce in
  q_set (ReqChallenge (mkReqChal (qh_version s) (qh_requester_ct s) (qh_requester_cap s)
           (qh_responder_ct s) (qh_responder_cap s) (qh_algorithms s) (qh_cert_slot s)
           (qh_cert_chain s) (qh_cert_chain_size s) (Some (ch_nonce challenge)))) ;;;
  size <- q_write req_of_full (write_msg Challenge_id (fun e => e) (challenge_write_body challenge)) ;;
  out <- q_prefix size ;;
  q_extend out ;;;
  ret out.
(** src/requester.rs:216-246 *)
Definition write_req_e (st : ReqStates) (source : option (list N)) : Q (list N) :=
  match st with
  | ReqVersion => write_get_version
  | ReqCapabilities s => cap_write_msg s
  | ReqAlgorithms s => alg_write_msg s
  | ReqIdAuth s => match qi_digests s with None => write_get_digests_msg | Some _ => write_get_certificate_msg 0 end
  | ReqChallenge s => chal_write_msg_e s source
  | ReqError | ReqNewSession => pnc PUnimplemented
  end.
(** src/requester.rs:107-116 *)
Definition requester_next_request_e (R : Requester) (source : option (list N)) (buf : list N)
  : res RequesterError (list N) * list N * Requester :=
  match req_state R with
  | None => (Panic PUnwrap, buf, R)
  | Some ReqNewSession => (Err ReqInitializationComplete, buf, R)
  | Some st =>
    let '(r, c) := write_req_e st source (mkQCtx buf (req_transcript R) st) in
    (r, q_buf c, mkRequester (req_root R) (q_tr c) (Some (q_state c)))
  end.
End Entropy.
