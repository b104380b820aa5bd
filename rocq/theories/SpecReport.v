(** Specification for C81: what the state of an endpoint, as [state()] shows it,
    says about the negotiation, and what the messages exchanged say about it. *)
From Verif Require Import Base Config Encoding MsgCommon MsgVersion MsgCapabilities MsgAlgorithms MsgDigest MsgCertificates
     MsgChallenge MsgError Transcript Crypto Responder Requester SpecWire SpecResponder SpecRequester.

(** * What a state shows (its public fields) *)
(** Responder: CT exponent and flags of the requester, then its own. *)
Definition rsp_shown_caps (st : RspStates) : option (N * N * N * N) :=
  match st with
  | RspAlgorithms s => Some (ra_requester_ct s, ra_requester_cap s, ra_responder_ct s, ra_responder_cap s)
  | RspIdAuth s | RspChallenge s => Some (ri_requester_ct s, ri_requester_cap s, ri_responder_ct s, ri_responder_cap s)
  | _ => None
  end.
Definition rsp_shown_algorithms (st : RspStates) : option Algorithms :=
  match st with RspIdAuth s | RspChallenge s => Some (ri_algorithms s) | _ => None end.
(** Requester: the version, the capabilities of both sides, the algorithms, and
    the slot and certificate chain received. *)
Definition req_shown_version (st : ReqStates) : option VersionEntry :=
  match st with
  | ReqCapabilities s => Some (qc_version s) | ReqAlgorithms s => Some (qa_version s)
  | ReqIdAuth s => Some (qi_version s) | ReqChallenge s => Some (qh_version s) | _ => None
  end.
Definition req_shown_caps (st : ReqStates) : option (N * N * N * N) :=
  match st with
  | ReqAlgorithms s => Some (qa_requester_ct s, qa_requester_cap s, qa_responder_ct s, qa_responder_cap s)
  | ReqIdAuth s => Some (qi_requester_ct s, qi_requester_cap s, qi_responder_ct s, qi_responder_cap s)
  | ReqChallenge s => Some (qh_requester_ct s, qh_requester_cap s, qh_responder_ct s, qh_responder_cap s)
  | _ => None
  end.
Definition req_shown_algorithms (st : ReqStates) : option Algorithms :=
  match st with ReqIdAuth s => Some (qi_algorithms s) | ReqChallenge s => Some (qh_algorithms s) | _ => None end.
Definition req_shown_certificate (st : ReqStates) : option (N * list N) :=
  match st with
  | ReqChallenge s => Some (qh_cert_slot s, firstn (N.to_nat (qh_cert_chain_size s)) (qh_cert_chain s))
  | _ => None
  end.
(** [b] still shows what [a] showed. *)
Definition still {A} (a b : option A) : Prop := forall x, a = Some x -> b = Some x.
Definition rsp_kept (st st' : RspStates) : Prop :=
  still (rsp_shown_caps st) (rsp_shown_caps st') /\ still (rsp_shown_algorithms st) (rsp_shown_algorithms st').
Definition req_kept (st st' : ReqStates) : Prop :=
  still (req_shown_version st) (req_shown_version st') /\ still (req_shown_caps st) (req_shown_caps st') /\
  still (req_shown_algorithms st) (req_shown_algorithms st') /\ still (req_shown_certificate st) (req_shown_certificate st').

Section SpecReport.
Context {cfg : Config} {cr : Crypto}.

(** * What the exchanges of a responder's session say *)
Definition said_version (x : list N * list N) : Prop :=
  starts_with get_version_bytes (fst x) /\ snd x = version_reply.
(** The requester announced [ct], [flags]; the responder [own], its configured flags. *)
Definition said_capabilities (ct flags own : N) (x : list N * list N) : Prop :=
  starts_with ([0x11; 0xE1]%N ++ capabilities_layout ct flags) (fst x) /\ only_bits req_flag_bits flags /\
  flags_named RspFlags_from_str CAPABILITIES own /\ snd x = [0x11; 0x61]%N ++ capabilities_layout 12 own.
(** [al] was chosen from the offer, and told. *)
Definition said_algorithms (al : Algorithms) (x : list N * list N) : Prop :=
  exists body na es fs,
    starts_with ([0x11; 0xE3]%N ++ body) (fst x) /\ negotiate_fmt body na /\ algorithms_chosen na al es fs /\
    snd x = [0x11; 0x63]%N ++ algorithms_layout (N.of_nat (length fs)) (36 + 4 * N.of_nat (length fs))
              (al_measurement_spec al) (al_measurement_hash al) (al_base_asym al) (al_base_hash al) (no_ext fs).
(** The digests of the slots' chains, under the hash chosen. *)
Definition said_digests (slots : list (option FilledSlot)) (al : Algorithms) (x : list N * list N) : Prop :=
  exists mask, starts_with [0x11; 0x81]%N (fst x) /\ mask_of_slots slots mask /\
    snd x = [0x11; 0x01]%N ++ digests_layout NUM_SLOTS mask (slot_chain_digest (al_base_hash al) slots).
Definition said_certificate (slots : list (option FilledSlot)) (x : list N * list N) : Prop :=
  exists slot off len, starts_with ([0x11; 0x82]%N ++ get_certificate_layout slot off len) (fst x) /\ N.to_nat slot < NUM_SLOTS /\
    snd x = [0x11; 0x02]%N ++ certificate_layout slot (slot_chain_bytes slots (N.to_nat slot)) 0.
(** A CHALLENGE_AUTH with a signature of the size of the algorithm chosen. *)
Definition said_challenge (slots : list (option FilledSlot)) (s : RspIdState) (x : list N * list N) : Prop :=
  exists slot t nonce mask own_nonce signature,
    starts_with ([0x11; 0x83]%N ++ challenge_layout slot t nonce) (fst x) /\ mask_of_slots slots mask /\
    snd x = unsigned_auth s slots slot mask own_nonce ++ signature /\
    sig_len (al_base_asym (ri_algorithms s)) = Some (length signature).

(** [st] is the state of a responder whose session so far is [ex]. *)
Definition rsp_now (slots : list (option FilledSlot)) (ex : list (list N * list N)) (st : RspStates) : Prop :=
  match st with
  | RspError => False
  | RspVersion => ex = []
  | RspCapabilities s => s = mkRspCap None None None None /\ exists before v, ex = before ++ [v] /\ said_version v
  | RspAlgorithms s =>
    ra_responder_ct s = 12%N /\ ra_algorithms s = None /\
    exists before v c, ex = before ++ [v; c] /\ said_version v /\
      said_capabilities (ra_requester_ct s) (ra_requester_cap s) (ra_responder_cap s) c
  | RspIdAuth s =>
    ri_responder_ct s = 12%N /\
    exists before v c a ds, ex = before ++ [v; c; a] ++ ds /\ said_version v /\
      said_capabilities (ri_requester_ct s) (ri_requester_cap s) (ri_responder_cap s) c /\
      said_algorithms (ri_algorithms s) a /\ Forall (said_digests slots (ri_algorithms s)) ds
  | RspChallenge s =>
    ri_responder_ct s = 12%N /\
    exists before v c a ds t hs, ex = before ++ [v; c; a] ++ ds ++ [t] ++ hs /\ said_version v /\
      said_capabilities (ri_requester_ct s) (ri_requester_cap s) (ri_responder_cap s) c /\
      said_algorithms (ri_algorithms s) a /\ Forall (said_digests slots (ri_algorithms s)) ds /\
      said_certificate slots t /\ Forall (said_challenge slots s) hs
  end.

(** A call that is no reset and carries no GET_VERSION. *)
Definition no_restart_call (c : call) : Prop :=
  match c with CallHandle _ req _ => code req <> 0x84%N | CallReset => False end.
End SpecReport.
