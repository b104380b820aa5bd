(** Specification of a faithful run: a requester and a responder, each with a
    build of its own, and a transport that delivers every message unchanged. *)
From Verif Require Import Base Config Encoding MsgCommon MsgVersion MsgCapabilities MsgAlgorithms MsgCertificates Transcript Crypto Responder Requester
     SpecWire SpecResponder SpecRequester SpecVerdict.

(** What one exchange consumes: randomness and buffers of both sides. *)
Record step_input := mkIn { in_fresh : list N; in_reqbuf : list N; in_rnd : Rnd; in_rspbuf : list N }.
Definition input_ok (room : nat) (i : step_input) : Prop :=
  fresh_ok (in_fresh i) /\ rnd_ok (in_rnd i) /\ room <= length (in_reqbuf i) /\ room <= length (in_rspbuf i).

Section SpecAgree.
(** Requester's build and crypto, responder's build and crypto. *)
Variables (cq : Config) (kq : Crypto) (cr : Config) (kr : Crypto).
(** One exchange in which everything succeeds; both messages are bytes. *)
Definition exchanged (i : step_input) (Q : Requester) (R : Responder) (req out : list N) (b : bool) (Q' : Requester) (R' : Responder) : Prop :=
  bytes req /\ bytes out /\
  exists Q1 reqbuf' rspbuf',
    @requester_next_request cq kq Q (in_fresh i) (in_reqbuf i) = (Ok req, reqbuf', Q1) /\
    @responder_handle_msg cr kr R (in_rnd i) req (in_rspbuf i) = (Replied out (Ok tt), rspbuf', R') /\
    @requester_handle_msg cq kq Q1 out = (Ok b, Q').
(** Exchanges from the start, until handle_msg says that it is done: [b]. *)
Inductive faithful (root : list N) (slots : list (option FilledSlot))
  : list step_input -> list (list N * list N) -> bool -> Requester -> Responder -> Prop :=
| faithful_start : faithful root slots [] [] false (@requester_new cq root) (@responder_new cr slots)
| faithful_step ins ex Q R i req out b Q' R' :
    faithful root slots ins ex false Q R -> exchanged i Q R req out b Q' R' ->
    faithful root slots (ins ++ [i]) (ex ++ [(req, out)]) b Q' R'.
(** The same exchanges as the requester sees them. *)
Definition as_events (ex : list (list N * list N)) : list event := flat_map (fun x => [Sent (fst x); Got (snd x)]) ex.
(** How many exchanges the announced capabilities require. *)
Definition rounds (ownq ownr : N) : nat :=
  if both cert_bit ownq ownr then if both chal_bit ownq ownr then 6 else 5 else 3.
(** Slot 0 holds a chain the requester trusts and can store, and a signer for
    its key: 64 byte signatures that verify under the leaf certificate. *)
Definition good_slot (root : list N) (f : FilledSlot) : Prop :=
  bytes (chain_bytes (fs_chain f)) /\ length (chain_bytes (fs_chain f)) <= @MAX_CERT_CHAIN_SIZE cq /\
  @chain_trusted cq kq root 0x10 32 (chain_bytes (fs_chain f)) (fs_chain f) /\
  forall r digest, length digest = 32 -> bytes digest -> exists signature,
    fs_signer f r digest = Ok signature /\ length signature = 64 /\ bytes signature /\
    @signature_verifies kq 0x10 (cc_leaf_cert (fs_chain f)) digest signature.
(** The bytes of all messages of a run without the signature, [f] being the
    responder's slot 0: 138 up to ALGORITHMS; with certificates a digest of each
    chain held by a slot and the chain of slot 0; with a challenge two nonces and
    two digests. *)
Definition run_bytes (slots : list (option FilledSlot)) (ownq ownr : N) (f : FilledSlot) : nat :=
  let nonce := if @feature_rand cq then 32 else 0 in
  (4 + 10) + (12 + 12) + (48 + 52) +
  if both cert_bit ownq ownr then
    (4 + (4 + 32 * occupied slots)) + (8 + (8 + length (chain_bytes (fs_chain f)))) +
    if both chal_bit ownq ownr then (4 + nonce) + (4 + 32 + nonce + 32 + 6) else 0
  else 0.
(** A pair of endpoints that fit together, [f] being the responder's slot 0: both
    builds are accepted by build.rs; the same SHA-256 on both sides; nonces on
    both or none; each side announces the capabilities of its configuration; a
    signature algorithm is configured. *)
Record matched (root : list N) (slots : list (option FilledSlot)) (ownq ownr : N) (f : FilledSlot) : Prop := mkMatched {
  honest_built_q : @built cq kq;
  honest_built_r : @built cr kr;
  honest_hash_q : @hash_contract kq;
  honest_hash_r : @hash_contract kr;
  honest_same_hash : forall d, @sha kq 1%N d = @sha kr 1%N d;
  honest_nonces : @feature_rand cq = @feature_rand cr;
  honest_signing : @SIGNING_ALGOS cq <> [];
  honest_caps_q : flags_named ReqFlags_from_str (@CAPABILITIES cq) ownq;
  honest_caps_r : flags_named RspFlags_from_str (@CAPABILITIES cr) ownr;
  honest_slots : length slots = @NUM_SLOTS cr;
  honest_digest_q : 32 <= @MAX_DIGEST_SIZE cq;
  honest_digest_r : 32 <= @MAX_DIGEST_SIZE cr;
  honest_slot0 : nth_error slots 0 = Some (Some f);
  honest_chains : forall i c, slot_chain slots i = Some c -> @chain_fits cr c;
  honest_trust : good_slot root f;
}.
(** An honest pair: and the transcripts are large enough for the whole run. *)
Definition honest (root : list N) (slots : list (option FilledSlot)) (ownq ownr : N) (f : FilledSlot) : Prop :=
  matched root slots ownq ownr f /\
  run_bytes slots ownq ownr f <= @TRANSCRIPT_SIZE cq /\ run_bytes slots ownq ownr f <= @TRANSCRIPT_SIZE cr.
(** The identity an honest pair agrees on: P-256 and SHA-256, lowest of every
    structure offered. *)
Definition agreed_algorithms : Algorithms :=
  mkAlgorithms 1 1 0x10 1 4 [Dhe 0x02; Aead 0x02; ReqBaseAsym 0x10; KeySchedule 0x01]%N.
End SpecAgree.

(** * Framing *)
(** A request, or a response when digests are [ds] and signatures [ss] bytes
    long, without trailing bytes. *)
Definition exact_request {cfg : Config} (req : list N) : Prop :=
  req = get_version_bytes \/
  (exists ct flags, req = [0x11; 0xE1]%N ++ capabilities_layout ct flags) \/
  (exists body na, negotiate_fmt body na /\ req = [0x11; 0xE3]%N ++ body) \/
  req = get_digests_msg \/
  (exists slot off len, req = [0x11; 0x82]%N ++ get_certificate_layout slot off len) \/
  (exists slot t nonce, nonce_ok nonce /\ req = [0x11; 0x83]%N ++ challenge_layout slot t nonce).
Definition exact_response {cfg : Config} (ds ss : nat) (rsp : list N) : Prop :=
  (exists es, rsp = [0x10; 0x04]%N ++ version_body es) \/
  (exists ct flags, rsp = [0x11; 0x61]%N ++ capabilities_layout ct flags) \/
  (exists body al, algorithms_fmt body al /\ rsp = [0x11; 0x63]%N ++ body) \/
  (exists mask dig, (forall i, length (dig i) = ds) /\ rsp = [0x11; 0x01]%N ++ digests_layout 8 mask dig) \/
  (exists slot portion remainder, (N.of_nat (length portion) < 65536)%N /\ rsp = [0x11; 0x02]%N ++ certificate_layout slot portion remainder) \/
  (exists m rsvd olen, ca_fields_ok ds ss m /\ rsp = [0x11; 0x03]%N ++ ca_bytes rsvd olen m).
(** The same request was answered with the same response, up to a signature of
    [ss] bytes at the end of CHALLENGE_AUTH. *)
Definition same_exchange (ss : nat) (x y : list N * list N) : Prop :=
  fst x = fst y /\
  (snd x = snd y \/ code (fst x) = 0x83%N /\ firstn (length (snd x) - ss) (snd x) = firstn (length (snd y) - ss) (snd y)).
