(** Specification of what the responder does with ANY request: a list of checks,
    in order; the first one that fails decides how the call ends, and the request
    is answered exactly when all of them hold.  Written over wire layouts and the
    public state and slot types only; no handler of the model is used. *)
From Verif Require Import Base Config Encoding MsgCommon MsgCapabilities MsgAlgorithms MsgCertificates MsgChallenge Crypto Responder
     SpecWire SpecResponder.
From Verif Require SpecFaults.
From Verif Require Export SpecChecks.

(** The request code an unexpected message is reported against. *)
Definition awaited (st : RspStates) : N :=
  (match st with
   | RspError => 0 | RspVersion => 0x84 | RspCapabilities _ => 0xE1 | RspAlgorithms _ => 0xE3
   | RspIdAuth _ => 0x82 | RspChallenge _ => 0x83
   end)%N.
(** The error of a message that is not well formed: the one of the first failing
    row of the message's own table (SpecFaults), wrapped in [f]. *)
Definition fault_of {E F : Type} (f : E -> F) (table : list (check E)) (e : F) : Prop :=
  exists why x, first_failing table (Refuse why) /\ why x /\ e = f x.
(** The error of a certificate chain that does not fit: its size does not fit a
    u16, or it does not fit the storage for a chain. *)
Definition chain_error (c : CertificateChain) : ResponderError :=
  RspWriteCertChain (if (65535 <? N.of_nat (length (chain_bytes c)))%N then MaxSizeExceeded else WCCBufferFull).

Section SpecVerdict.
Context {cfg : Config} {cr : Crypto}.
Variable slots : list (option FilledSlot).
Variable rnd : Rnd.
Variable req : list N.
Variable room : nat. (* size of the caller's response buffer *)
Variable log : list N. (* transcript before the call *)
Let body : list N := skipn 2 req. (* the request without its header *)

Definition fits_log (more : nat) : Prop := length log + more <= TRANSCRIPT_SIZE.
(** The response has [n] bytes: they fit the response buffer, and request and
    response fit the transcript. *)
Definition fits (n : nat) : Prop := n <= room /\ fits_log (length req + n).

(** What the request says, when it is well formed. *)
Definition asks_capabilities (ct flags : N) : Prop :=
  starts_with ([0x11; 0xE1]%N ++ capabilities_layout ct flags) req /\ only_bits req_flag_bits flags.
Definition asks_algorithms (na : NegotiateAlgorithms) (es : list AlgorithmRequest) : Prop :=
  exists body, starts_with ([0x11; 0xE3]%N ++ body) req /\ negotiate_fmt body na /\
    na_num_requests na = N.of_nat (length es) /\ alg_array (na_requests na) es.
Definition asks_certificate (slot : N) : Prop :=
  exists off len, starts_with ([0x11; 0x82]%N ++ get_certificate_layout slot off len) req /\
    (off < 65536)%N /\ (len < 65536)%N.
Definition asks_challenge (slot : N) : Prop :=
  exists t nonce, starts_with ([0x11; 0x83]%N ++ challenge_layout slot t nonce) req /\ nonce_ok nonce.

(** GET_VERSION: it also empties the log. *)
Definition version_checks : list (check ResponderError) :=
  [ (starts_with get_version_bytes req, Refuse (fault_of RspRead (SpecFaults.two_reserved_table body)));
    (10 <= room /\ length req + 10 <= TRANSCRIPT_SIZE, Refuse (is RspBufferFull)) ].
Definition capabilities_checks : list (check ResponderError) :=
  [ (exists ct flags, asks_capabilities ct flags, Refuse (fault_of RspParseGetCapabilities (SpecFaults.flags_table body req_flag_bits)));
    (fits_log (length req), Refuse (is RspBufferFull));
    (forall name, In name CAPABILITIES -> RspFlags_from_str name <> None, Refuse (is RspParseCapability));
    (fits 12, Refuse (is RspBufferFull)) ].
Definition algorithms_checks : list (check ResponderError) :=
  [ (exists na es, asks_algorithms na es, Refuse (fault_of RspParseNegotiateAlgorithms (SpecFaults.negotiate_table body)));
    (fits_log (length req), Refuse (is RspBufferFull));
    (overflow_checks = false \/ exists na es, asks_algorithms na es /\ ~ empty_offer na es, Crash);
    (exists na es, asks_algorithms na es /\ fits (36 + 4 * length es), Refuse (is RspBufferFull)) ].
(** GET_DIGESTS: the chains are serialized and hashed in slot order. *)
Definition filled (i : nat) : Prop := exists c, slot_chain slots i = Some c.
(** Number of filled slots. *)
Definition occupied : nat := length (filter (fun o => match o with Some _ => true | None => false end) slots).
Definition digests_checks (h : N) : list (check ResponderError) :=
  [ (forall i c, slot_chain slots i = Some c -> (forall j, j < i -> ~ filled j) -> chain_fits c,
     Refuse (fun e => exists i c, slot_chain slots i = Some c /\ (forall j, j < i -> ~ filled j) /\ e = chain_error c));
    (hash_usable h \/ (forall i, ~ filled i), Crash);
    (forall i c, slot_chain slots i = Some c -> chain_fits c,
     Refuse (fun e => exists i c, slot_chain slots i = Some c /\ ~ chain_fits c /\
       (forall j c', j < i -> slot_chain slots j = Some c' -> chain_fits c') /\ e = chain_error c));
    (fits (4 + hash_len h * occupied), Refuse (is RspBufferFull)) ].
Definition certificate_checks : list (check ResponderError) :=
  [ (exists slot, asks_certificate slot, Refuse (fault_of RspRead (SpecFaults.get_certificate_table body)));
    (exists slot, asks_certificate slot /\ N.to_nat slot < NUM_SLOTS, Refuse (is RspInvalidSlot));
    (exists slot, asks_certificate slot /\ forall c, slot_chain slots (N.to_nat slot) = Some c -> chain_fits c,
     Refuse (fun e => exists slot c, asks_certificate slot /\ slot_chain slots (N.to_nat slot) = Some c /\ e = chain_error c));
    (exists slot, asks_certificate slot /\ fits (8 + length (slot_chain_bytes slots (N.to_nat slot))), Refuse (is RspBufferFull)) ].
(** CHALLENGE; [h] and [a] are the negotiated hash and signature algorithms. *)
Definition slot_filled (slot : N) (f : FilledSlot) : Prop := nth_error slots (N.to_nat slot) = Some (Some f).
(** Bytes of CHALLENGE_AUTH before the signature. *)
Definition auth_len (h : N) : nat := 10 + 2 * hash_len h + (if feature_rand then 32 else 0).
(** A buffer that ends in the last four of them, the empty opaque data, is
    reported as an error of the opaque data. *)
Definition auth_error (n : nat) : WriteChallengeAuthError :=
  if (n - 4 <=? room) && (room <? n) then WCAWriteOpaqueElement WOEBufferFull else WCABufferFull.
(** The signer's answer for the challenge: asked about the log, the request and
    the unsigned response. *)
Definition signer_says (s : RspIdState) (r : res unit (list N)) : Prop :=
  exists slot f mask, asks_challenge slot /\ slot_filled slot f /\ mask_of_slots slots mask /\
    fs_signer f (rnd_sign rnd) (sha (al_base_hash (ri_algorithms s))
      (log ++ req ++ unsigned_auth s slots slot mask (wire_nonce (rnd_nonce rnd)))) = r.
Definition challenge_checks (s : RspIdState) : list (check ResponderError) :=
  let h := al_base_hash (ri_algorithms s) in
  let sig_room n := exists ss, sig_len (al_base_asym (ri_algorithms s)) = Some ss /\ n ss in
  [ (In h [1; 2; 4; 8; 16; 32]%N /\ hash_len h <= MAX_DIGEST_SIZE, Crash);
    (sig_room (fun ss => ss <= MAX_SIGNATURE_SIZE), Crash);
    (exists slot, asks_challenge slot, Refuse (fault_of RspParseChallenge (SpecFaults.challenge_table body)));
    (exists slot f, asks_challenge slot /\ slot_filled slot f, Refuse (is RspInvalidSlot));
    (exists slot f, asks_challenge slot /\ slot_filled slot f /\ chain_fits (fs_chain f),
     Refuse (fun e => exists slot f, asks_challenge slot /\ slot_filled slot f /\ e = chain_error (fs_chain f)));
    (hash_usable h, Crash);
    (fits_log (length req), Refuse (is RspBufferFull));
    (sig_room (fun ss => auth_len h + ss <= room),
     Refuse (is (RspWriteChallengeAuth (auth_error (auth_len h)))));
    (fits_log (length req + auth_len h), Refuse (is RspBufferFull));
    (forall e, ~ signer_says s (Err e), Refuse (is RspSigningFailed));
    (sig_room (fun ss => exists signature, signer_says s (Ok signature) /\ length signature = ss), Crash) ].

Definition checks (st : RspStates) : list (check ResponderError) :=
  match st with
  | RspError => [(False, Crash)]
  | _ =>
    [ (2 < length req, Crash);
      (In (code req) (map fst (accepts st)), Refuse (is (RspUnexpectedMsgCode (awaited st) (nth 0 req 0%N))));
      (In (code req, nth 0 req 0%N) (accepts st), Refuse (is RspParseHeader)) ] ++
    (if (code req =? 0x84)%N then version_checks
     else match st with
     | RspCapabilities _ => capabilities_checks
     | RspAlgorithms _ => algorithms_checks
     | RspIdAuth s => if (code req =? 0x81)%N then digests_checks (al_base_hash (ri_algorithms s)) else certificate_checks
     | RspChallenge s => challenge_checks s
     | _ => []
     end)
  end.
End SpecVerdict.

(** How the call really ended. *)
Definition ends_with (v : verdict ResponderError) (r : Reply) : Prop :=
  match v, r with
  | Answer, Replied _ (Ok _) => True
  | Refuse why, Replied _ (Err e) => why e
  | Crash, Panicked _ => True
  | _, _ => False
  end.
