(** Specification for C64: what an accepted authentication says about the world,
    when the certified keys are held by responders running this code and
    signatures cannot be forged. *)
From Verif Require Import Base Config Encoding MsgCommon MsgAlgorithms MsgCertificates MsgChallenge Transcript Crypto Responder
     SpecWire SpecResponder.

(** [a] and [b] are a collision of the hash algorithm [h].  (Some collision of h
    always exists, digests being short: what matters is that these two logs, which
    were computed, are one.) *)
Definition collision {cr : Crypto} (h : N) (a b : list N) : Prop := sha2 h /\ a <> b /\ sha h a = sha h b.
(** [l] occurs in [data]. *)
Definition occurs_in (l data : list N) : Prop := exists a b, data = a ++ l ++ b.

Section SpecAuth.
Context {cfg : Config} {cr : Crypto}.
(** [responder_signed P leaf h data]: some responder, with some slots and some
    history, in which it did the exchanges [ex] (which satisfy [P]), answered a
    CHALLENGE for a slot whose chain has the leaf certificate [leaf], signing
    with that slot's key the digest, for the algorithm [h] selected in its
    session and of its signature size, of [data]: the messages of the session since GET_VERSION including
    this CHALLENGE and the unsigned part [u] of the answer. *)
Definition responder_signed (P : list (list N * list N) -> Prop) (leaf : list N) (h : N) (data : list N) : Prop :=
  exists slots ex req u sg R s slot t nonce filled r,
    setting slots /\ session slots (ex ++ [(req, u ++ sg)]) R /\ P (ex ++ [(req, u ++ sg)]) /\
    rsp_state R = Some (RspChallenge s) /\ al_base_hash (ri_algorithms s) = h /\
    starts_with ([0x11; 0x83]%N ++ challenge_layout slot t nonce) req /\
    nth_error slots (N.to_nat slot) = Some (Some filled) /\ cc_leaf_cert (fs_chain filled) = leaf /\
    sig_len (al_base_asym (ri_algorithms s)) = Some (length sg) /\
    data = log_of (length sg) ex ++ req ++ u /\ fs_signer filled r (sha h data) = Ok sg.
End SpecAuth.

Section World.
Variables (cq : Config) (kq : Crypto) (cr : Config) (kr : Crypto).
(** The certification authority [root] certifies only keys held by such
    responders, and nobody can forge: whatever verifies under a certificate that
    [root] vouches for was signed by such a responder. *)
Definition keys_held_by_responders (P : list (list N * list N) -> Prop) (root : list N) (time : N) : Prop :=
  forall asym leaf intermediates msg der,
    @webpki_chain_ok kq asym leaf intermediates root time = true -> @webpki_sig_ok kq asym leaf msg der = true ->
    exists h data, @responder_signed cr kr P leaf h data /\ msg = @sha kr h data.
(** The root vouches for this leaf certificate. *)
Definition certified (root : list N) (time : N) (leaf : list N) : Prop :=
  exists asym intermediates, @webpki_chain_ok kq asym leaf intermediates root time = true.
(** A responder holding a certified key signed something else than [log], with the
    same digest. *)
Definition signed_collision (P : list (list N * list N) -> Prop) (root : list N) (time h : N) (log : list N) : Prop :=
  exists leaf data, @responder_signed cr kr P leaf h data /\ certified root time leaf /\ @collision kr h log data.
(** Both sides compute the same hash function. *)
Definition same_hash : Prop := forall h d, @sha kq h d = @sha kr h d.
End World.
