(** The fifteen message types as one type, so that properties of "every message"
    are single statements: writing, wire identity, and (independently of the
    writer) which values are well formed and what bytes they are. *)
From Verif Require Import Base Config Encoding MsgCommon MsgVersion MsgCapabilities MsgAlgorithms MsgDigest
     MsgCertificates MsgChallenge MsgError MsgMeasurements SpecWire.

Inductive message :=
| MGetVersion | MVersion (m : Version) | MGetCapabilities (m : GetCapabilities) | MCapabilities (m : Capabilities)
| MNegotiate (m : NegotiateAlgorithms) | MAlgorithms (m : Algorithms)
| MGetDigests | MDigests (m : Digests) | MGetCertificate (m : GetCertificate) | MCertificate (m : Certificate)
| MChallenge (m : Challenge) | MChallengeAuth (m : ChallengeAuth)
| MGetMeasurements (m : GetMeasurements) | MMeasurements (m : Measurements) | MError (m : ErrorMsg).

Inductive kind := KGetVersion | KVersion | KGetCapabilities | KCapabilities | KNegotiate | KAlgorithms
| KGetDigests | KDigests | KGetCertificate | KCertificate | KChallenge | KChallengeAuth
| KGetMeasurements | KMeasurements | KError.
Definition kind_of (m : message) : kind :=
  match m with
  | MGetVersion => KGetVersion | MVersion _ => KVersion | MGetCapabilities _ => KGetCapabilities
  | MCapabilities _ => KCapabilities | MNegotiate _ => KNegotiate | MAlgorithms _ => KAlgorithms
  | MGetDigests => KGetDigests | MDigests _ => KDigests | MGetCertificate _ => KGetCertificate
  | MCertificate _ => KCertificate | MChallenge _ => KChallenge | MChallengeAuth _ => KChallengeAuth
  | MGetMeasurements _ => KGetMeasurements | MMeasurements _ => KMeasurements | MError _ => KError
  end.
(** Request/response codes and message versions of the SPDM tables. *)
Definition code_of (k : kind) : N :=
  match k with
  | KGetVersion => 0x84 | KVersion => 0x04 | KGetCapabilities => 0xE1 | KCapabilities => 0x61
  | KNegotiate => 0xE3 | KAlgorithms => 0x63 | KGetDigests => 0x81 | KDigests => 0x01
  | KGetCertificate => 0x82 | KCertificate => 0x02 | KChallenge => 0x83 | KChallengeAuth => 0x03
  | KGetMeasurements => 0xE0 | KMeasurements => 0x60 | KError => 0x7F
  end.
Definition version_of (k : kind) : N :=
  match k with
  | KGetVersion | KVersion => 0x10
  | KGetMeasurements | KMeasurements | KError => 0x12
  | _ => 0x11
  end.

(** What the caller of [write] sees: success, no space, or another error. *)
Inductive write_failure := NoSpace | OtherFailure.

Section Any.
Context {cfg : Config}.
(** The constants the code uses for each type (SPDM_VERSION, SPDM_CODE). *)
Definition id_of (k : kind) : MsgId :=
  match k with
  | KGetVersion => GetVersion_id | KVersion => Version_id | KGetCapabilities => GetCapabilities_id
  | KCapabilities => Capabilities_id | KNegotiate => NegotiateAlgorithms_id | KAlgorithms => Algorithms_id
  | KGetDigests => GetDigests_id | KDigests => Digests_id | KGetCertificate => GetCertificate_id
  | KCertificate => Certificate_id | KChallenge => Challenge_id | KChallengeAuth => ChallengeAuth_id
  | KGetMeasurements => GetMeasurements_id | KMeasurements => Measurements_id | KError => Error_id
  end.
Definition classify {E} (full : E -> bool) (r : res E nat * list N) : res write_failure nat * list N :=
  (rmap_err (fun e => if full e then NoSpace else OtherFailure) (fst r), snd r).
Definition any_full : BufferFullError -> bool := fun _ => true.
Definition woe_full (e : WriteOpaqueElementError) : bool := match e with WOEBufferFull => true | WOEInvalidVendorId => false end.
(** [Msg::write] (src/msgs/mod.rs:83-87) of each type. *)
Definition write_any (m : message) (buf : list N) : res write_failure nat * list N :=
  match m with
  | MGetVersion => classify any_full (write_msg GetVersion_id (fun e => e) get_version_write_body buf)
  | MVersion m => classify any_full (write_msg Version_id (fun e => e) (version_write_body m) buf)
  | MGetCapabilities m => classify any_full (write_msg GetCapabilities_id (fun e => e) (get_capabilities_write_body m) buf)
  | MCapabilities m => classify any_full (write_msg Capabilities_id (fun e => e) (capabilities_write_body m) buf)
  | MNegotiate m => classify any_full (write_msg NegotiateAlgorithms_id (fun e => e) (negotiate_algorithms_write_body m) buf)
  | MAlgorithms m => classify any_full (write_msg Algorithms_id (fun e => e) (algorithms_write_body m) buf)
  | MGetDigests => classify any_full (write_msg GetDigests_id (fun e => e) get_digests_write_body buf)
  | MDigests m => classify any_full (write_msg Digests_id (fun e => e) (digests_write_body m) buf)
  | MGetCertificate m => classify any_full (write_msg GetCertificate_id (fun e => e) (get_certificate_write_body m) buf)
  | MCertificate m => classify any_full (write_msg Certificate_id (fun e => e) (certificate_write_body m) buf)
  | MChallenge m => classify any_full (write_msg Challenge_id (fun e => e) (challenge_write_body m) buf)
  | MChallengeAuth m =>
    classify (fun e => match e with WCABufferFull => true | WCAWriteOpaqueElement e => woe_full e | _ => false end)
             (write_msg ChallengeAuth_id wca_from (challenge_auth_write_body m) buf)
  | MGetMeasurements m =>
    classify (fun e => match e with WGMBufferFull => true | _ => false end)
             (write_msg GetMeasurements_id wgm_from (get_measurements_write_body m) buf)
  | MMeasurements m =>
    classify (fun e => match e with WMBufferFull => true | WMWriteOpaqueElement e => woe_full e end)
             (write_msg Measurements_id wm_from (measurements_write_body m) buf)
  | MError m => classify any_full (write_msg Error_id (fun e => e) (error_write_body m) buf)
  end.
End Any.

(** A read of each body; parameters are the negotiated digest and signature
    sizes and whether a signature was requested. Errors are not distinguished. *)
Section AnyParse.
Context {cfg : Config}.
Definition forget {E A} (f : A -> message) (r : res E A) : res unit message := rmap_err (fun _ => tt) (rmap f r).
Definition parse_any (k : kind) (ds ss : nat) (sr : bool) (buf : list N) : res unit message :=
  match k with
  | KGetVersion => forget (fun _ => MGetVersion) (get_version_parse_body buf)
  | KVersion => forget MVersion (version_parse_body buf)
  | KGetCapabilities => forget MGetCapabilities (get_capabilities_parse_body buf)
  | KCapabilities => forget MCapabilities (capabilities_parse_body buf)
  | KNegotiate => forget MNegotiate (negotiate_algorithms_parse_body buf)
  | KAlgorithms => forget MAlgorithms (algorithms_parse_body buf)
  | KGetDigests => forget (fun _ => MGetDigests) (get_digests_parse_body buf)
  | KDigests => forget MDigests (digests_parse_body ds buf)
  | KGetCertificate => forget MGetCertificate (get_certificate_parse_body buf)
  | KCertificate => forget MCertificate (certificate_parse_body buf)
  | KChallenge => forget MChallenge (challenge_parse_body buf)
  | KChallengeAuth => forget MChallengeAuth (challenge_auth_parse_body buf ds ss)
  | KGetMeasurements => forget MGetMeasurements (get_measurements_parse_body buf)
  | KMeasurements => forget MMeasurements (measurements_parse_body buf sr ss)
  | KError => forget MError (error_parse_body buf)
  end.
End AnyParse.
