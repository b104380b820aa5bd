(** Specification for C82: what the endpoints ask of the cryptographic functions. *)
From Verif Require Import Base Config Encoding MsgCommon MsgAlgorithms MsgCertificates MsgChallenge Transcript Crypto Responder Requester
     SpecWire SpecResponder SpecRequester.

(** A question to the hash implementation, to webpki (does this certificate parse;
    does this root certificate parse; does this chain verify up to the root at
    that time; does this DER signature verify) or to the signing key of a slot. *)
Inductive query :=
| HashOf (algo : N) (data : list N)
| CertOk (leaf : list N)
| AnchorOk (root : list N)
| ChainOk (algo : N) (leaf : list N) (intermediates : list (list N)) (root : list N) (time : N)
| SigOk (algo : N) (leaf msg der : list N)
| SignWith (slot : nat) (randomness msg : list N).

(** Two cryptographic libraries that answer the questions in [Q] alike (and may
    differ in all others). *)
Definition alike (Q : query -> Prop) (k k' : Crypto) : Prop :=
  @provider k = @provider k' /\
  (forall algo data, Q (HashOf algo data) -> @sha k algo data = @sha k' algo data) /\
  (forall leaf, Q (CertOk leaf) -> @webpki_cert_ok k leaf = @webpki_cert_ok k' leaf) /\
  (forall root, Q (AnchorOk root) -> @webpki_anchor_ok k root = @webpki_anchor_ok k' root) /\
  (forall algo leaf inter root time, Q (ChainOk algo leaf inter root time) ->
     @webpki_chain_ok k algo leaf inter root time = @webpki_chain_ok k' algo leaf inter root time) /\
  (forall algo leaf msg der, Q (SigOk algo leaf msg der) -> @webpki_sig_ok k algo leaf msg der = @webpki_sig_ok k' algo leaf msg der).
(** Two sets of slots with the same certificate chains, whose keys answer the
    questions in [Q] alike. *)
Definition slots_alike (Q : query -> Prop) (slots slots' : list (option FilledSlot)) : Prop :=
  length slots = length slots' /\
  forall i, match nth_error slots i, nth_error slots' i with
            | Some (Some f), Some (Some f') =>
              fs_chain f = fs_chain f' /\ forall r msg, Q (SignWith i r msg) -> fs_signer f r msg = fs_signer f' r msg
            | Some None, Some None | None, None => True
            | _, _ => False
            end.

Section SpecCryptoUse.
Context {cfg : Config} {cr : Crypto}.
(** What a responder asks while it handles [req]: in answer to GET_DIGESTS the hash
    of each chain it holds; in answer to CHALLENGE the hash of the chain of the slot
    named, the hash of all messages up to the signature, and that slot's key for the
    signature of this hash; and nothing else. *)
Definition rsp_asks (R : Responder) (rnd : Rnd) (req : list N) (q : query) : Prop :=
  match rsp_state R with
  | Some (RspIdAuth s) =>
    starts_with [0x11; 0x81]%N req /\
    exists i c, slot_chain (rsp_slots R) i = Some c /\ q = HashOf (al_base_hash (ri_algorithms s)) (chain_bytes c)
  | Some (RspChallenge s) =>
    exists slot t nonce filled mask,
      starts_with ([0x11; 0x83]%N ++ challenge_layout slot t nonce) req /\ nonce_ok nonce /\
      nth_error (rsp_slots R) (N.to_nat slot) = Some (Some filled) /\ mask_of_slots (rsp_slots R) mask /\
      let h := al_base_hash (ri_algorithms s) in
      let signed := t_get (rsp_transcript R) ++ req ++
                    unsigned_auth s (rsp_slots R) slot mask (wire_nonce (rnd_nonce rnd)) in
      q = HashOf h (chain_bytes (fs_chain filled)) \/ q = HashOf h signed \/
      q = SignWith (N.to_nat slot) (rnd_sign rnd) (sha h signed)
  | _ => False
  end.
(** ... while it handles a list of calls. *)
Definition rsp_asks_in (R : Responder) (calls : list call) (q : query) : Prop :=
  exists before rnd req rsp rest, calls = before ++ CallHandle rnd req rsp :: rest /\ rsp_asks (after R before) rnd req q.

(** What a requester asks while it handles [rsp]: nothing unless it awaits
    CHALLENGE_AUTH and this is one, for the slot of the certificates received.  Then
    the hash of the chain received; if that is the hash in the message, the hash of
    all messages up to the signature; then whether leaf and root parse, whether the
    chain verifies up to its root certificate at the fixed time, and, the chain being
    trusted, whether the signature in the message verifies. *)
Definition req_asks (R : Requester) (rsp : list N) (q : query) : Prop :=
  exists s m rsvd olen ss,
    req_state R = Some (ReqChallenge s) /\ sig_len (al_base_asym (qh_algorithms s)) = Some ss /\
    starts_with ([0x11; 0x03]%N ++ ca_bytes rsvd olen m) rsp /\
    ca_fields_ok (hash_len (al_base_hash (qh_algorithms s))) ss m /\ ca_slot m = qh_cert_slot s /\
    let h := al_base_hash (qh_algorithms s) in
    let asym := al_base_asym (qh_algorithms s) in
    let portion := firstn (N.to_nat (qh_cert_chain_size s)) (qh_cert_chain s) in
    let signed := t_get (req_transcript R) ++ firstn (length rsp - ss) rsp in
    q = HashOf h portion \/
    ca_cert_chain_hash m = sha h portion /\
    (q = HashOf h signed \/
     exists chain, portion = chain_bytes chain /\ chain_ok (hash_len h) chain /\
       (q = CertOk (cc_leaf_cert chain) \/ q = AnchorOk (req_root R) \/
        q = ChainOk asym (cc_leaf_cert chain) (cc_intermediates chain) (req_root R) trust_time \/
        chain_trusted (req_root R) asym (hash_len h) portion chain /\
        exists k der, length (ca_signature m) = 2 * k /\
          der_signature der (be_val (firstn k (ca_signature m))) (be_val (skipn k (ca_signature m))) /\
          q = SigOk asym (cc_leaf_cert chain) (sha h signed) der)).
Definition req_asks_in (R : Requester) (calls : list req_call) (q : query) : Prop :=
  exists before rsp rest, calls = before ++ CallMsg rsp :: rest /\ req_asks (req_after R before) rsp q.
(** Everything the caller of a requester sees. *)
Fixpoint req_observed (R : Requester) (calls : list req_call) : list (res RequesterError (list N) * list N + res RequesterError bool) :=
  match calls with
  | [] => []
  | CallNext fresh buf :: r =>
    let '(out, buf', R') := requester_next_request R fresh buf in inl (out, buf') :: req_observed R' r
  | CallMsg rsp :: r => let '(b, R') := requester_handle_msg R rsp in inr b :: req_observed R' r
  end.
End SpecCryptoUse.
