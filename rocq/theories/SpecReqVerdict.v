(** Specification of what the requester does in ANY call: for handle_msg with any
    bytes and for next_request, the list of checks in order; the first that fails
    decides how the call ends, and it succeeds exactly when all hold.  Written
    over wire layouts and the public state types only. *)
From Verif Require Import Base Config Encoding MsgCommon MsgVersion MsgCapabilities MsgAlgorithms MsgDigest MsgCertificates
     MsgChallenge Crypto Responder Requester SpecWire SpecResponder SpecRequester SpecVerdict.
From Verif Require SpecFaults.

Section SpecReqVerdict.
Context {cfg : Config} {cr : Crypto}.
Notation checks := (list (check RequesterError)).

(** * handle_msg *)
Section Handle.
Variable root : list N.
Variable rsp : list N.
Variable log : list N. (* transcript before the call *)
Let body : list N := skipn 2 rsp. (* the response without its header *)

(** The message awaited: its code and its version byte. *)
Definition awaits (st : ReqStates) : N * N :=
  (match st with
   | ReqVersion => (0x04, 0x10) | ReqCapabilities _ => (0x61, 0x11) | ReqAlgorithms _ => (0x63, 0x11)
   | ReqIdAuth s => (match qi_digests s with None => 0x01 | Some _ => 0x02 end, 0x11)
   | ReqChallenge _ => (0x03, 0x11) | ReqError | ReqNewSession => (0, 0)
   end)%N.
(** [n] more bytes fit the transcript. *)
Definition log_fits (n : nat) : Prop := length log + n <= TRANSCRIPT_SIZE.

(** What the response says, when it is well formed. *)
Definition says_versions (es : list VersionEntry) : Prop :=
  starts_with ([0x10; 0x04]%N ++ version_body es) rsp /\ Forall version_entry_ok es /\ length es <= 2.
Definition says_capabilities (ct flags : N) : Prop :=
  starts_with ([0x11; 0x61]%N ++ capabilities_layout ct flags) rsp /\ only_bits rsp_flag_bits flags.
Definition says_algorithms (al : Algorithms) (fs : list AlgorithmRequest) : Prop :=
  exists body, starts_with ([0x11; 0x63]%N ++ body) rsp /\ algorithms_fmt body al /\
    al_num_responses al = N.of_nat (length fs) /\ alg_array (al_responses al) fs.
Definition says_digests (h : N) (d : Digests) : Prop :=
  starts_with ([0x11; 0x01]%N ++ digests_layout NUM_SLOTS (d_slot_mask d) (slot_digest d)) rsp /\ digests_ok NUM_SLOTS (hash_len h) d.
Definition says_certificate (c : Certificate) : Prop :=
  exists portion, starts_with ([0x11; 0x02]%N ++ certificate_layout (cert_slot c) portion (cert_remainder_length c)) rsp /\
    certificate_has c portion.
Definition says_auth (h : N) (ss : nat) (m : ChallengeAuth) : Prop :=
  exists rsvd olen, starts_with ([0x11; 0x03]%N ++ ca_bytes rsvd olen m) rsp /\ (rsvd < 8)%N /\ (olen <= 1024)%N /\
    ca_fields_ok (hash_len h) ss m.

Definition hear_version : checks :=
  [ (exists es, says_versions es, Refuse (fault_of ReqParseVersion (SpecFaults.version_table body)));
    (exists es v, says_versions es /\ highest_common es v,
     Refuse (fun e => exists v es, says_versions es /\ version_has v es /\ e = ReqNoSupportedVersions v));
    (log_fits (length rsp), Refuse (is ReqBufferFull)) ].
Definition hear_capabilities (s : ReqCapState) : checks :=
  [ (exists ct flags, says_capabilities ct flags, Refuse (is ReqParseCapabilities));
    (log_fits (length rsp), Refuse (is ReqBufferFull));
    (** GET_CAPABILITIES was sent before *)
    (qc_requester_ct s <> None /\ qc_requester_cap s <> None, Crash) ].
Definition hear_algorithms (s : ReqAlgState) : checks :=
  [ (exists al fs, says_algorithms al fs, Refuse (fault_of ReqParseAlgorithms (SpecFaults.algorithms_table body)));
    (** NEGOTIATE_ALGORITHMS was sent before *)
    (qa_negotiate s <> None, Crash);
    (exists na es unused al fs, qa_negotiate s = Some na /\
       na_num_requests na = N.of_nat (length es) /\ na_requests na = es ++ unused /\
       says_algorithms al fs /\ selection_ok na es al fs, Refuse (is ReqSelectedAlgorithmNotRequested));
    (log_fits (length rsp), Refuse (is ReqBufferFull)) ].
Definition hear_digests (h : N) : checks :=
  [ (known_hash h /\ hash_len h <= MAX_DIGEST_SIZE, Crash);
    (exists d, says_digests h d, Refuse (fault_of ReqRead (SpecFaults.digests_table body (hash_len h))));
    (log_fits (length rsp), Refuse (is ReqBufferFull)) ].
Definition hear_certificate : checks :=
  [ (exists c, says_certificate c, Refuse (fault_of ReqParseCert (SpecFaults.certificate_table body)));
    (log_fits (length rsp), Refuse (is ReqBufferFull)) ].

(** CHALLENGE_AUTH; [h] and [asym] are the negotiated algorithms, [portion] the
    certificate chain received before. *)
Definition hear_auth (s : ReqChalState) : checks :=
  let h := al_base_hash (qh_algorithms s) in
  let asym := al_base_asym (qh_algorithms s) in
  let portion := firstn (N.to_nat (qh_cert_chain_size s)) (qh_cert_chain s) in
  let says P := exists ss m, sig_len asym = Some ss /\ says_auth h ss m /\ P ss m in
  let chain P := exists c, portion = chain_bytes c /\ chain_ok (hash_len h) c /\ P c in
  [ (known_hash h /\ hash_len h <= MAX_DIGEST_SIZE, Crash);
    (exists ss, sig_len asym = Some ss /\ ss <= MAX_SIGNATURE_SIZE, Crash);
    (** not too many or too large opaque elements *)
    (~ ca_overflow (hash_len h) (skipn 2 rsp), Crash);
    (says (fun _ _ => True), Refuse (fun e => exists ss, sig_len asym = Some ss /\
       fault_of ReqParseChallengeAuth (SpecFaults.challenge_auth_table body (hash_len h) ss) e));
    (says (fun _ m => ca_slot m = qh_cert_slot s), Refuse (is (ReqChallengeAuth IncorrectSlot)));
    (** slot 8 exists for the parser of a build with 8 slots *)
    (says (fun _ m => overflow_checks = true -> (ca_slot m < 8)%N), Crash);
    (says (fun _ m => N.testbit (ca_slot_mask m) (ca_slot m mod 8) = true), Refuse (is (ReqChallengeAuth SlotNotInMask)));
    (hash_usable h, Crash);
    (says (fun _ m => ca_cert_chain_hash m = sha h portion), Refuse (is (ReqChallengeAuth DigestMismatch)));
    (says (fun ss _ => log_fits (length rsp - ss)), Refuse (is ReqBufferFull));
    (** where a certificate of the chain should start, one starts *)
    (~ chain_bad_tag (hash_len h) portion, Crash);
    (chain (fun _ => True), Refuse (fault_of ReqParseCertChain (SpecFaults.chain_table portion (hash_len h))));
    (chain (fun c => webpki_cert_ok (cc_leaf_cert c) = true) /\ webpki_anchor_ok root = true, Refuse (is ReqInvalidCert));
    (In asym [0x10; 0x80]%N, Crash);
    (exists c, chain_trusted root asym (hash_len h) portion c, Refuse (is ReqInvalidCert));
    (says (fun ss m => exists k, ss = 2 * k /\ be_val (firstn k (ca_signature m)) <> 0%N /\ be_val (skipn k (ca_signature m)) <> 0%N), Crash);
    (says (fun ss m => exists c, chain_trusted root asym (hash_len h) portion c /\
       signature_verifies asym (cc_leaf_cert c) (sha h (log ++ firstn (length rsp - ss) rsp)) (ca_signature m)),
     Refuse (is (ReqChallengeAuth InvalidSignature))) ].

Definition hear_checks (st : ReqStates) : checks :=
  match st with
  | ReqError | ReqNewSession => [(False, Crash)]
  | _ =>
    [ (2 < length rsp, Crash);
      (code rsp = fst (awaits st), Refuse (is (ReqUnexpectedMsgCode (fst (awaits st)) (nth 0 rsp 0%N))));
      (nth 0 rsp 0%N = snd (awaits st), Refuse (is ReqParseHeader)) ] ++
    match st with
    | ReqVersion => hear_version
    | ReqCapabilities s => hear_capabilities s
    | ReqAlgorithms s => hear_algorithms s
    | ReqIdAuth s => match qi_digests s with
                     | None => hear_digests (al_base_hash (qi_algorithms s))
                     | Some _ => hear_certificate
                     end
    | ReqChallenge s => hear_auth s
    | ReqError | ReqNewSession => []
    end
  end.
End Handle.

(** * next_request *)
(** The message to write has [n] bytes; they fit the caller's buffer of [room]
    bytes and the transcript [log]. *)
Definition sends (room : nat) (log : list N) (n : nat) : check RequesterError :=
  (n <= room /\ log_fits log n, Refuse (is ReqBufferFull)).
Definition ask_checks (room : nat) (log : list N) (st : ReqStates) : checks :=
  match st with
  | ReqError => [(False, Crash)]
  | ReqVersion => [sends room [] 4] (** GET_VERSION empties the transcript *)
  | ReqCapabilities _ =>
      [ (forall name, In name CAPABILITIES -> ReqFlags_from_str name <> None, Refuse (is ReqParseCapability)); sends room log 12 ]
  | ReqAlgorithms _ =>
      [ (forall name, In name SIGNING_ALGOS -> BaseAsymAlgo_from_str name <> None, Refuse (is ReqParseBaseAsymAlgo)); sends room log 48 ]
  | ReqIdAuth s =>
      match qi_digests s with
      | None => [sends room log 4]
      | Some _ => [(0 < NUM_SLOTS, Crash); sends room log 8]
      end
  | ReqChallenge _ => [sends room log (if feature_rand then 36 else 4)]
  | ReqNewSession => [(False, Refuse (is ReqInitializationComplete))]
  end.
End SpecReqVerdict.
