(** Specification of the responder's protocol behaviour: which exchanges may
    happen in which state, what exactly is answered, and what the message log
    (the transcript) is afterwards.  Written over wire layouts (SpecWire) and the
    public state and slot types only; no handler of the model is used. *)
From Verif Require Import Base Config Encoding MsgCommon MsgCapabilities MsgAlgorithms MsgDigest MsgCertificates
     MsgChallenge MsgError Crypto Responder SpecWire.

(** [l] starts with [p]. *)
Definition starts_with (p l : list N) : Prop := exists rest, l = p ++ rest.

(** [c] is the lowest-numbered algorithm in the set [offered]. *)
Definition lowest_of (offered c : N) : Prop :=
  exists i, N.testbit offered i = true /\ (forall j, (j < i)%N -> N.testbit offered j = false) /\ c = (2 ^ i)%N.

(** Digest and signature sizes of the SPDM tables. *)
Definition sha2 (h : N) : Prop := h = 1%N \/ h = 2%N \/ h = 4%N.
Definition hash_len (h : N) : nat :=
  if (h =? 1)%N || (h =? 8)%N then 32 else if (h =? 2)%N || (h =? 16)%N then 48 else 64.
Definition sig_len (a : N) : option nat :=
  if (a =? 1)%N || (a =? 2)%N then Some 256 else if (a =? 4)%N || (a =? 8)%N then Some 384
  else if (a =? 0x10)%N then Some 64 else if (a =? 0x20)%N || (a =? 0x40)%N then Some 512
  else if (a =? 0x80)%N then Some 96 else if (a =? 0x100)%N then Some 132 else None.

(** The VERSION response: versions 1.0 and 1.1. *)
Definition version_reply : list N := [0x10; 0x04; 0; 0; 0; 2; 0x00; 0x10; 0x00; 0x11]%N.

Section SpecResponder.
Context {cfg : Config} {cr : Crypto}.

(** What is assumed of the hash implementation: fixed-size byte strings. *)
Definition hash_contract : Prop :=
  forall h data, sha2 h -> length (sha h data) = hash_len h /\ bytes (sha h data).
(** What is assumed of the randomness handed in: OsRng fills 32 bytes. *)
Definition rnd_ok (rnd : Rnd) : Prop := length (rnd_nonce rnd) = 32 /\ bytes (rnd_nonce rnd).
(** The nonce on the wire: absent without the rand feature. *)
Definition wire_nonce (fresh : list N) : list N := if feature_rand then fresh else [].

(** A selection the code makes: the lowest offered algorithm; from an empty
    offer, a build without overflow checks selects algorithm 0. *)
Definition selected (offered c : N) : Prop :=
  lowest_of offered c \/ (overflow_checks = false /\ offered = 0%N /\ c = 1%N).
Definition entry_selected (a b : AlgorithmRequest) : Prop :=
  alg_struct_type a = alg_struct_type b /\ selected (alg_struct_fixed a) (alg_struct_fixed b).
Definition algorithms_chosen (na : NegotiateAlgorithms) (al : Algorithms) (es fs : list AlgorithmRequest) : Prop :=
  na_num_requests na = N.of_nat (length es) /\ alg_array (na_requests na) es /\
  al_num_responses al = N.of_nat (length fs) /\ alg_array (al_responses al) fs /\
  Forall2 entry_selected es fs /\
  al_measurement_spec al = na_measurement_spec na /\
  selected (na_base_hash_algo na) (al_base_hash al) /\
  al_measurement_hash al = al_base_hash al /\
  selected (na_base_asym_algo na) (al_base_asym al).

(** Some list of algorithms in the request is empty. *)
Definition offer_empty (a : AlgorithmRequest) : Prop := alg_struct_fixed a = 0%N.
Definition empty_offer (na : NegotiateAlgorithms) (es : list AlgorithmRequest) : Prop :=
  na_base_hash_algo na = 0%N \/ na_base_asym_algo na = 0%N \/ Exists offer_empty es.

(** The hash can be computed in this build. *)
Definition hash_usable (h : N) : Prop := provider = ProviderRing /\ sha2 h /\ hash_len h <= MAX_DIGEST_SIZE.
(** The chain stored in slot [i]. *)
Definition slot_chain (slots : list (option FilledSlot)) (i : nat) : option CertificateChain :=
  match nth_error slots i with Some (Some s) => Some (fs_chain s) | _ => None end.
(** The serialized chain fits the buffers and its own length field. *)
Definition chain_fits (c : CertificateChain) : Prop :=
  length (chain_bytes c) <= MAX_CERT_CHAIN_SIZE /\ (N.of_nat (length (chain_bytes c)) < 65536)%N.
(** Bit i of [mask] is set exactly when slot i is filled. *)
Definition mask_of_slots (slots : list (option FilledSlot)) (mask : N) : Prop :=
  is_byte mask /\ forall i, slot_in_mask mask i = true <-> exists c, slot_chain slots i = Some c.
Definition slot_chain_bytes (slots : list (option FilledSlot)) (i : nat) : list N :=
  match slot_chain slots i with Some c => chain_bytes c | None => [] end.
Definition slot_chain_digest (h : N) (slots : list (option FilledSlot)) (i : nat) : list N :=
  sha h (slot_chain_bytes slots i).
(** Both sides announced MUT_AUTH_CAP (bit 8). *)
Definition both_mutual (s : RspIdState) : bool :=
  N.testbit (ri_requester_cap s) 8 && N.testbit (ri_responder_cap s) 8.

(** CHALLENGE_AUTH up to its signature.  (With mutual authentication the code
    loses the slot number and the flag, see C15_mutual_auth_refuted.) *)
Definition unsigned_auth (s : RspIdState) (slots : list (option FilledSlot)) (slot mask : N) (nonce : list N) : list N :=
  [0x11; 0x03]%N ++
  challenge_auth_layout (if both_mutual s then 0 else slot) 0 false mask
    (slot_chain_digest (al_base_hash (ri_algorithms s)) slots (N.to_nat slot)) nonce
    (zeros (hash_len (al_base_hash (ri_algorithms s)))) 4 [] [].

(** [served slots rnd req st log out st' log']: in state [st], with message log
    [log], the request [req] is answered with [out]; then the state is [st'] and
    the log [log']. *)
Inductive served (slots : list (option FilledSlot)) (rnd : Rnd) (req : list N)
  : RspStates -> list N -> list N -> RspStates -> list N -> Prop :=
| served_version st log :
    st <> RspError -> starts_with get_version_bytes req ->
    served slots rnd req st log version_reply (RspCapabilities (mkRspCap None None None None)) (req ++ version_reply)
| served_capabilities s log ct flags own out :
    starts_with ([0x11; 0xE1]%N ++ capabilities_layout ct flags) req -> only_bits req_flag_bits flags ->
    (forall name, In name CAPABILITIES -> RspFlags_from_str name <> None) -> flags_named RspFlags_from_str CAPABILITIES own ->
    out = [0x11; 0x61]%N ++ capabilities_layout 12 own ->
    served slots rnd req (RspCapabilities s) log out (RspAlgorithms (mkRspAlg ct flags 12 own None)) (log ++ req ++ out)
| served_algorithms s log body na al es fs out :
    starts_with ([0x11; 0xE3]%N ++ body) req -> negotiate_fmt body na -> algorithms_chosen na al es fs ->
    out = [0x11; 0x63]%N ++ algorithms_layout (N.of_nat (length fs)) (36 + 4 * N.of_nat (length fs))
            (al_measurement_spec al) (al_measurement_hash al) (al_base_asym al) (al_base_hash al) (no_ext fs) ->
    served slots rnd req (RspAlgorithms s) log out
      (RspIdAuth (mkRspId (ra_requester_ct s) (ra_requester_cap s) (ra_responder_ct s) (ra_responder_cap s) al))
      (log ++ req ++ out)
| served_digests s log mask out :
    starts_with [0x11; 0x81]%N req -> 2 < length req -> mask_of_slots slots mask ->
    (forall i c, slot_chain slots i = Some c -> chain_fits c /\ hash_usable (al_base_hash (ri_algorithms s))) ->
    out = [0x11; 0x01]%N ++ digests_layout NUM_SLOTS mask (slot_chain_digest (al_base_hash (ri_algorithms s)) slots) ->
    served slots rnd req (RspIdAuth s) log out (RspIdAuth s) (log ++ req ++ out)
| served_certificate s log slot off len out :
    starts_with ([0x11; 0x82]%N ++ get_certificate_layout slot off len) req ->
    (off < 65536)%N -> (len < 65536)%N -> N.to_nat slot < NUM_SLOTS ->
    (forall c, slot_chain slots (N.to_nat slot) = Some c -> chain_fits c) ->
    out = [0x11; 0x02]%N ++ certificate_layout slot (slot_chain_bytes slots (N.to_nat slot)) 0 ->
    served slots rnd req (RspIdAuth s) log out (RspChallenge s) (log ++ req ++ out)
| served_challenge s log slot t nonce mask filled ss signature out :
    starts_with ([0x11; 0x83]%N ++ challenge_layout slot t nonce) req -> nonce_ok nonce ->
    nth_error slots (N.to_nat slot) = Some (Some filled) -> chain_fits (fs_chain filled) ->
    hash_usable (al_base_hash (ri_algorithms s)) ->
    sig_len (al_base_asym (ri_algorithms s)) = Some ss -> ss <= MAX_SIGNATURE_SIZE ->
    mask_of_slots slots mask ->
    out = unsigned_auth s slots slot mask (wire_nonce (rnd_nonce rnd)) ->
    fs_signer filled (rnd_sign rnd) (sha (al_base_hash (ri_algorithms s)) (log ++ req ++ out)) = Ok signature ->
    length signature = ss ->
    served slots rnd req (RspChallenge s) log (out ++ signature) (RspChallenge s) (log ++ req ++ out).

(** Why a handler may panic. *)
Definition panics_because (slots : list (option FilledSlot)) (req : list N) (st : RspStates) : Prop :=
  st = RspError \/ length req <= 2 \/
  match st with
  | RspAlgorithms _ =>
    overflow_checks = true /\
    exists body na es, starts_with ([0x11; 0xE3]%N ++ body) req /\ negotiate_fmt body na /\
      na_num_requests na = N.of_nat (length es) /\ alg_array (na_requests na) es /\ empty_offer na es
  | RspIdAuth s =>
    starts_with [0x11; 0x81]%N req /\ ~ hash_usable (al_base_hash (ri_algorithms s)) /\
    exists i c, slot_chain slots i = Some c
  | RspChallenge s =>
    starts_with [0x11; 0x83]%N req /\
    (~ hash_usable (al_base_hash (ri_algorithms s)) \/
     (forall ss, sig_len (al_base_asym (ri_algorithms s)) = Some ss -> MAX_SIGNATURE_SIZE < ss) \/
     exists filled r d, In (Some filled) slots /\
       ((exists p, fs_signer filled r d = Panic p) \/
        exists sg ss, fs_signer filled r d = Ok sg /\ sig_len (al_base_asym (ri_algorithms s)) = Some ss /\ length sg <> ss))
  | _ => False
  end.

(** The ERROR response assigned to each failure. *)
Definition error_reply (e : ResponderError) : list N :=
  let read e := match e with BufferEmpty => [0x0E; 0] | ReservedByteNotZero => [0x01; 0] | _ => [0x05; 0] end%N in
  ([0x12; 0x7F] ++
   match e with
   | RspParseHeader | RspUnexpectedMsgCode _ _ => [0x04; 0]
   | RspBufferFull | RspWriteCertChain _ => [0x0F; 0; 0]
   | RspInvalidSlot => [0x01; 0]
   | RspSigningFailed | RspParseCapability => [0x05; 0]
   | RspRead e | RspParseGetCapabilities (CapRead e) | RspParseNegotiateAlgorithms (PNARead e)
   | RspParseChallenge (PChRead e) => read e
   | RspParseGetCapabilities CapInvalidBitsSet => [0x01; 0]
   | RspParseNegotiateAlgorithms PNATooLarge => [0x0E; 0]
   | RspParseNegotiateAlgorithms _ => [0x01; 0]
   | RspParseChallenge InvalidMeasurementHashType => [0x01; 0]
   | RspWriteChallengeAuth WCABufferFull => [0x0D; 0; 0; 0; 0; 0]
   | RspWriteChallengeAuth _ => [0x01; 0]
   end)%N.

(** * Histories *)
(** What is assumed of the environment: a build's number of slots (build.rs
    accepts 1 to 8), one array cell per slot, and the hash contract. *)
Definition setting (slots : list (option FilledSlot)) : Prop :=
  length slots = NUM_SLOTS /\ NUM_SLOTS <= 8 /\ hash_contract.
(** The calls a user can make, with the randomness consumed by each. *)
Inductive call := CallHandle (rnd : Rnd) (req rsp : list N) | CallReset.
Definition call_ok (c : call) : Prop :=
  match c with CallHandle rnd req _ => bytes req /\ rnd_ok rnd | CallReset => True end.
Definition after_call (R : Responder) (c : call) : Responder :=
  match c with
  | CallHandle rnd req rsp => let '(_, _, R') := responder_handle_msg R rnd req rsp in R'
  | CallReset => responder_reset R
  end.
Definition after (R : Responder) (calls : list call) : Responder := fold_left after_call calls R.
(** [R] is a responder with these slots after some arbitrary history. *)
Definition reached (slots : list (option FilledSlot)) (R : Responder) : Prop :=
  exists calls, Forall call_ok calls /\ R = after (responder_new slots) calls.
(** Everything a user sees of a list of calls: replies and buffer contents. *)
Fixpoint observed (R : Responder) (calls : list call) : list (Reply * list N) :=
  match calls with
  | [] => []
  | CallHandle rnd req rsp :: r =>
    let '(reply, rsp', R') := responder_handle_msg R rnd req rsp in (reply, rsp') :: observed R' r
  | CallReset :: r => observed (responder_reset R) r
  end.

(** [R] has handled exactly these (request, response) exchanges, all
    successfully, since it was created or last reset. *)
Inductive session (slots : list (option FilledSlot)) : list (list N * list N) -> Responder -> Prop :=
| session_new : session slots [] (responder_new slots)
| session_reset R : reached slots R -> session slots [] (responder_reset R)
| session_step ex R rnd req rsp out rsp' R' :
    session slots ex R -> bytes req -> rnd_ok rnd ->
    responder_handle_msg R rnd req rsp = (Replied out (Ok tt), rsp', R') ->
    session slots (ex ++ [(req, out)]) R'.

(** The code of a message. *)
Definition code (msg : list N) : N := nth 1 msg 0%N.
(** The codes handled since the last GET_VERSION, for each state. *)
Definition phase (st : RspStates) (codes : list N) : Prop :=
  (match st with
   | RspError => False
   | RspVersion => codes = []
   | RspCapabilities _ => codes = [0x84]
   | RspAlgorithms _ => codes = [0x84; 0xE1]
   | RspIdAuth _ => exists d, codes = [0x84; 0xE1; 0xE3] ++ repeat 0x81 d
   | RspChallenge _ => exists d c, codes = [0x84; 0xE1; 0xE3] ++ repeat 0x81 d ++ [0x82] ++ repeat 0x83 c
   end)%N.
(** The requests each state has a use for, with the version they must carry. *)
Definition accepts (st : RspStates) : list (N * N) :=
  (match st with
   | RspError => []
   | RspVersion => [(0x84, 0x10)]
   | RspCapabilities _ => [(0x84, 0x10); (0xE1, 0x11)]
   | RspAlgorithms _ => [(0x84, 0x10); (0xE3, 0x11)]
   | RspIdAuth _ => [(0x84, 0x10); (0x81, 0x11); (0x82, 0x11)]
   | RspChallenge _ => [(0x84, 0x10); (0x83, 0x11)]
   end)%N.
(** The message log of a session whose CHALLENGE_AUTH signatures are [ss] long:
    it restarts at GET_VERSION and omits these signatures. *)
Definition log_one (ss : nat) (log : list N) (x : list N * list N) : list N :=
  let '(req, out) := x in
  if (code req =? 0x84)%N then req ++ out
  else if (code req =? 0x83)%N then log ++ req ++ firstn (length out - ss) out
  else log ++ req ++ out.
Definition log_of (ss : nat) (ex : list (list N * list N)) : list N := fold_left (log_one ss) ex [].
(** Size of the signatures of the negotiated algorithm. *)
Definition negotiated_sig_len (st : RspStates) : nat :=
  match st with
  | RspIdAuth s | RspChallenge s => match sig_len (al_base_asym (ri_algorithms s)) with Some n => n | None => 0 end
  | _ => 0
  end.
End SpecResponder.
