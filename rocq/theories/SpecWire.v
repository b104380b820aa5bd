(** Specification of the wire formats, written from the SPDM 1.1/1.2 message
    tables as plain byte lists, independently of the Writer and Reader models.
    Only the message record types are taken from the model. *)
From Verif Require Import Base Config MsgCommon MsgVersion MsgCapabilities MsgAlgorithms MsgDigest
     MsgCertificates MsgChallenge MsgError MsgMeasurements.

(** Little-endian integers. *)
Definition u16le (n : N) : list N := [n mod 256; (n / 256) mod 256]%N.
Definition u24le (n : N) : list N := [n mod 256; (n / 256) mod 256; (n / 256 / 256) mod 256]%N.
Definition u32le (n : N) : list N :=
  [n mod 256; (n / 256) mod 256; (n / 256 / 256) mod 256; (n / 256 / 256 / 256) mod 256]%N.
Definition zeros (n : nat) : list N := repeat 0%N n.

(** A call that is given a buffer and returns its result with the buffer's new
    contents writes exactly [enc]: if [enc] fits, the result is its length and
    the buffer is [enc] followed by its old contents; otherwise the call fails
    with an error in [full], and only a prefix of the buffer changed, to a
    prefix of [enc]. *)
Definition writes_exactly {E} (wr : list N -> res E nat * list N) (full : E -> Prop) (enc : list N) : Prop :=
  forall buf,
    (length enc <= length buf -> wr buf = (Ok (length enc), enc ++ skipn (length enc) buf)) /\
    (length buf < length enc ->
     exists e k, full e /\ k <= length buf /\ wr buf = (Err e, firstn k enc ++ skipn k buf)).

(** A parser accepts exactly the buffers starting with bytes [bs] such that
    [fmt bs m], and then returns [m]; what follows is ignored. *)
Definition parses_exactly {E A} (parse : list N -> res E A) (fmt : list N -> A -> Prop) : Prop :=
  forall buf, bytes buf -> forall m, parse buf = Ok m <-> exists bs rest, buf = bs ++ rest /\ fmt bs m.

(** A parser returns a value or an error on every byte string. *)
Definition never_panics {E A} (parse : list N -> res E A) : Prop :=
  forall buf, bytes buf -> forall p, parse buf <> Panic p.

(** * GET_VERSION and VERSION *)
Definition get_version_bytes : list N := [0x10; 0x84; 0; 0]%N.

(** major:4 minor:4 update:4 alpha:4 as a little-endian 16 bit number. *)
Definition version_entry_bytes (e : VersionEntry) : list N :=
  u16le (ve_alpha e + 16 * ve_update e + 256 * ve_minor e + 4096 * ve_major e).
Definition version_entry_ok (e : VersionEntry) : Prop :=
  (ve_major e < 16 /\ ve_minor e < 16 /\ ve_update e < 16 /\ ve_alpha e < 16)%N.
(** The body of VERSION with these entries. *)
Definition version_body (es : list VersionEntry) : list N :=
  [0; 0; 0]%N ++ [N.of_nat (length es)] ++ concat (map version_entry_bytes es).
(** [v] holds exactly the entries [es], unused cells being default. *)
Definition version_has (v : Version) (es : list VersionEntry) : Prop :=
  length es <= 2 /\ v_num_entries v = N.of_nat (length es) /\
  v_entries v = es ++ repeat (mkVE 0 0 0 0) (2 - length es).

(** * GET_CAPABILITIES and CAPABILITIES *)
Definition capabilities_layout (ct flags : N) : list N :=
  zeros 3 ++ [ct] ++ zeros 2 ++ u32le flags.
(** Every set bit of [flags] is one of the bits listed. *)
Definition only_bits (defined : list N) (flags : N) : Prop :=
  forall i, N.testbit flags i = true -> In i defined.
Definition req_flag_bits : list N := [1; 2; 6; 7; 8; 9; 10; 11; 12; 13; 14; 15; 16]%N.
Definition rsp_flag_bits : list N := [0; 1; 2; 3; 4; 5; 6; 7; 8; 9; 10; 11; 12; 13; 14; 15; 16]%N.

(** [bits] is the set of flags with the given names. *)
Definition flags_named (parse : string -> option N) (names : list string) (bits : N) : Prop :=
  forall i, N.testbit bits i = true <-> exists s v, In s names /\ parse s = Some v /\ N.testbit v i = true.

(** * NEGOTIATE_ALGORITHMS and ALGORITHMS *)
Definition asym_bits : list N := [0; 1; 2; 3; 4; 5; 6; 7; 8]%N.
Definition hash_bits : list N := [0; 1; 2; 3; 4; 5]%N.
Definition meas_spec_bits : list N := [0]%N.
Definition alg_struct_type (a : AlgorithmRequest) : N :=
  match a with Dhe _ => 2 | Aead _ => 3 | ReqBaseAsym _ => 4 | KeySchedule _ => 5 end.
Definition alg_struct_bits (a : AlgorithmRequest) : list N :=
  match a with
  | Dhe _ => [0; 1; 2; 3; 4; 5] | Aead _ => [0; 1; 2]
  | ReqBaseAsym _ => [0; 1; 2; 3; 4; 5; 6; 7; 8] | KeySchedule _ => [0]
  end%N.
Definition alg_struct_fixed (a : AlgorithmRequest) : N :=
  match a with Dhe s => s | Aead s => s | ReqBaseAsym s => s | KeySchedule s => s end.
Definition alg_struct_ok (a : AlgorithmRequest) : Prop := only_bits (alg_struct_bits a) (alg_struct_fixed a).
(** Type, AlgCount (fixed byte count 2 in the high nibble, number of external
    algorithms in the low nibble), fixed algorithms, external algorithms. *)
Definition alg_struct_bytes (a : AlgorithmRequest) (ext : list N) : list N :=
  [alg_struct_type a] ++ [N.of_nat (length ext / 4) + 16 * 2]%N ++ u16le (alg_struct_fixed a) ++ ext.
Definition ext_ok (max : nat) (ext : list N) : Prop := exists n, n <= max /\ length ext = 4 * n.

(** A structure table: each structure with its external algorithms. *)
Definition alg_table (t : list (AlgorithmRequest * list N)) : list N :=
  concat (map (fun p => alg_struct_bytes (fst p) (snd p)) t).

Definition negotiate_layout (n len spec asym hash : N) (ext_asym ext_hash : list N)
           (t : list (AlgorithmRequest * list N)) : list N :=
  [n] ++ zeros 1 ++ u16le len ++ [spec] ++ zeros 1 ++ u32le asym ++ u32le hash ++ zeros 12 ++
  [N.of_nat (length ext_asym / 4)] ++ [N.of_nat (length ext_hash / 4)] ++ zeros 2 ++
  ext_asym ++ ext_hash ++ alg_table t.

Definition algorithms_layout (n len spec mhash asym hash : N) (t : list (AlgorithmRequest * list N)) : list N :=
  [n] ++ zeros 1 ++ u16le len ++ [spec] ++ zeros 1 ++ u32le mhash ++ u32le asym ++ u32le hash ++
  zeros 12 ++ zeros 1 ++ zeros 1 ++ zeros 2 ++ alg_table t.

(** Exactly one bit is set and it is a listed one. *)
Definition one_bit_of (defined : list N) (flags : N) : Prop := exists i, In i defined /\ flags = (2 ^ i)%N.

(** * DIGESTS *)
(** Digests of the slots set in the mask, in slot order, among the first [n]. *)
Definition slot_in_mask (mask : N) (i : nat) : bool := N.testbit mask (N.of_nat i).
Definition digests_layout (n : nat) (mask : N) (dig : nat -> list N) : list N :=
  zeros 1 ++ [mask] ++ concat (map dig (filter (slot_in_mask mask) (seq 0 n))).
(** The digest held for slot [i], and: [m] has a digest, of [size] bytes, exactly
    in the slots of its mask. *)
Definition slot_digest (m : Digests) (i : nat) : list N :=
  match nth_error (d_digests m) i with Some (Some d) => d | _ => [] end.
Definition digests_ok (n size : nat) (m : Digests) : Prop :=
  length (d_digests m) = n /\
  forall i, i < n ->
    (slot_in_mask (d_slot_mask m) i = true -> exists d, nth_error (d_digests m) i = Some (Some d) /\ length d = size) /\
    (slot_in_mask (d_slot_mask m) i = false -> nth_error (d_digests m) i = Some None).

(** * GET_CERTIFICATE, CERTIFICATE, certificate chains *)
Definition get_certificate_layout (slot off len : N) : list N :=
  [slot] ++ zeros 1 ++ u16le off ++ u16le len.
Definition certificate_layout (slot : N) (portion : list N) (remainder : N) : list N :=
  [slot] ++ zeros 1 ++ u16le (N.of_nat (length portion)) ++ u16le remainder ++ portion.
Definition chain_layout (root_hash : list N) (inters : list (list N)) (leaf : list N) : list N :=
  u16le (N.of_nat (4 + length root_hash + length (concat inters) + length leaf)) ++
  zeros 2 ++ root_hash ++ concat inters ++ leaf.
(** DER: SEQUENCE tag, minimal definite length, contents. *)
Definition der_len (n : nat) : list N :=
  if n <? 128 then [N.of_nat n]
  else if n <? 256 then [0x81; N.of_nat n]%N
  else [0x82; N.of_nat n / 256; N.of_nat n mod 256]%N.
Definition der_framed (cert : list N) : Prop :=
  exists content, (N.of_nat (length content) < 65536)%N /\ cert = [0x30]%N ++ der_len (length content) ++ content.

(** * DER signatures *)
(** Big-endian values and canonical DER (X.690) positive integers. *)
Fixpoint be_val (l : list N) : N :=
  match l with [] => 0%N | b :: r => (b * 256 ^ N.of_nat (length r) + be_val r)%N end.
(** [content] is the shortest two's complement encoding of a non-negative number. *)
Definition minimal_uint (content : list N) : Prop :=
  match content with
  | [] => False
  | [b] => (b < 128)%N
  | b :: b' :: _ => (b < 128)%N /\ (b = 0%N -> (128 <= b')%N)
  end.
Definition der_uint (enc : list N) (v : N) : Prop :=
  exists content, enc = [0x02]%N ++ der_len (length content) ++ content /\ bytes content /\
                  minimal_uint content /\ be_val content = v.
(** A SEQUENCE of the two INTEGERs. *)
Definition der_signature (enc : list N) (r s : N) : Prop :=
  exists re se, der_uint re r /\ der_uint se s /\ enc = [0x30]%N ++ der_len (length (re ++ se)) ++ re ++ se.

(** * CHALLENGE *)
Definition hash_type_code (t : MeasurementHashType) : N :=
  match t with MHNone => 0 | MHTcb => 1 | MHAll => 255 end.
Definition challenge_layout (slot : N) (t : MeasurementHashType) (nonce : list N) : list N :=
  [slot] ++ [hash_type_code t] ++ nonce.

(** * Nonces: 32 bytes with the [rand] feature, absent without. *)
Definition nonce_ok {cfg : Config} (n : list N) : Prop := length n = if feature_rand then 32 else 0.

(** * Opaque data *)
Definition registry_code (v : VendorRegistryId) : N :=
  match v with
  | Dmtf => 0 | Tcg => 1 | Usb => 2 | PciSig => 3 | Iana => 4 | HDBaseT => 5 | Mipi => 6 | Cxl => 7 | Jedec => 8
  end.
(** Length of a registry's vendor ids in bytes. *)
Definition registry_id_len (v : VendorRegistryId) : nat :=
  match v with
  | Dmtf => 0 | Tcg => 2 | Usb => 2 | PciSig => 2 | Iana => 4 | HDBaseT => 4 | Mipi => 2 | Cxl => 2 | Jedec => 2
  end.
Definition vendor_id_bytes (v : VendorId) : list N :=
  match v with VEmpty => [] | VU16 x => u16le x | VU32 x => u32le x end.
Definition vendor_id_ok (v : VendorId) : Prop :=
  match v with VEmpty => True | VU16 x => (x < 65536)%N | VU32 x => (x < 4294967296)%N end.
(** Zero padding to a multiple of 4. *)
Definition pad4 (l : list N) : list N := l ++ zeros ((4 - length l mod 4) mod 4).
Definition opaque_element_bytes (e : OpaqueElement) : list N :=
  pad4 ([registry_code (oe_registry e)] ++ [N.of_nat (length (vendor_id_bytes (oe_vendor e)))] ++
        vendor_id_bytes (oe_vendor e) ++ u16le (N.of_nat (length (oe_data e))) ++ oe_data e).
Definition vendor_matches (e : OpaqueElement) : Prop :=
  length (vendor_id_bytes (oe_vendor e)) = registry_id_len (oe_registry e).
Definition opaque_bytes (d : OpaqueData) : list N :=
  [N.of_nat (length d)] ++ zeros 3 ++ concat (map opaque_element_bytes d).

(** * CHALLENGE_AUTH: slot in bits 3:0, bits 6:4 reserved, mutual authentication
    request in bit 7. *)
Definition bit (b : bool) : N := if b then 1 else 0.
Definition challenge_auth_layout (slot rsvd : N) (mutual : bool) (mask : N) (chain_hash nonce summary : list N)
           (opaque_len : N) (od : OpaqueData) (sig : list N) : list N :=
  [slot + 16 * rsvd + 128 * bit mutual]%N ++ [mask] ++ chain_hash ++ nonce ++ summary ++
  u16le opaque_len ++ opaque_bytes od ++ sig.

(** * ERROR *)
Definition error_code (m : ErrorMsg) : N :=
  (match m with
   | InvalidRequest => 0x01 | Busy => 0x03 | UnexpectedRequest => 0x04 | Unspecified => 0x05
   | DecryptError => 0x06 | UnsupportedRequest _ => 0x07 | RequestInFlight => 0x08
   | InvalidResponseCode => 0x09 | SessionLimitExceeded => 0x0A | SessionRequired => 0x0B
   | ResetRequired => 0x0C | ResponseTooLarge _ => 0x0D | RequestTooLarge => 0x0E
   | LargeResponse _ => 0x0F | MessageLost => 0x10 | VersionMismatch => 0x41
   | RespNotReady _ => 0x42 | RequestResynch => 0x43 | VendorDef _ _ => 0xFF
   end)%N.
(** The error data byte, for the errors that use it. *)
Definition error_data (m : ErrorMsg) : option N :=
  match m with
  | UnsupportedRequest c => Some c
  | VendorDef id _ => Some (registry_code id)
  | _ => None
  end.
(** The extended error data. *)
Definition error_ext (m : ErrorMsg) : list N :=
  match m with
  | ResponseTooLarge n => u32le n
  | LargeResponse h => [h]
  | RespNotReady v => [rnr_rdt_exponent v; rnr_request_code v; rnr_token v; rnr_rdtm v]
  | VendorDef _ v =>
    [N.of_nat (length (vendor_id_bytes (vd_vendor_id v)))] ++ vendor_id_bytes (vd_vendor_id v) ++ vd_opaque v
  | _ => []
  end.
Definition error_layout (m : ErrorMsg) : list N :=
  [error_code m] ++ [match error_data m with Some d => d | None => 0%N end] ++ error_ext m.
(** The values of an error's fields fit their wire fields. *)
Definition error_ok (m : ErrorMsg) : Prop :=
  match m with
  | ResponseTooLarge n => (n < 4294967296)%N
  | VendorDef _ v => vendor_id_ok (vd_vendor_id v)
  | _ => True
  end.

(** * GET_MEASUREMENTS *)
Definition index_code (i : MeasurementIndex) : N :=
  match i with
  | TotalNumberOfMeasurementsAvailable => 0 | AllMeasurements => 255 | ImplementationDefined v => v
  | Reserved v => v | IdxMeasurementManifest => 0xFD | IdxDeviceMode => 0xFE
  end.
Definition index_ok (i : MeasurementIndex) : Prop :=
  match i with
  | ImplementationDefined v => (0x01 <= v <= 0xEF)%N
  | Reserved v => (0xF0 <= v <= 0xFC)%N
  | _ => True
  end.
Definition get_measurements_layout (m : GetMeasurements) : list N :=
  [bit (ra_signature_requested (gm_attributes m)) + 2 * bit (ra_raw_bit_stream_requested (gm_attributes m))]%N ++
  [index_code (gm_index m)] ++
  (if ra_signature_requested (gm_attributes m)
   then match gm_nonce m with Some n => n | None => [] end ++ [gm_slot_id m] else []).

(** * MEASUREMENTS *)
Definition value_type_code (t : ValueType) : N :=
  match t with
  | VTImmutableRom => 0 | VTMutableFirmware => 1 | VTHardwareConfig => 2 | VTFirmwareConfig => 3
  | VTMeasurementManifest => 4 | VTDeviceMode => 5 | VTMutableFirmwareVersion => 6
  | VTMutableFirmwareSecurityVersion => 7
  end.
Definition value_bytes (v : MeasurementValue) : list N := match v with MVDigest d => d | MVBitStream b => b end.
Definition repr_bit (r : ValueRepresentation) : N := match r with ReprDigest => 0 | ReprRawBitStream => 128 end.
Definition dmtf_bytes (m : DmtfMeasurement) : list N :=
  [repr_bit (dm_representation m) + value_type_code (dm_type m)]%N ++
  u16le (N.of_nat (length (value_bytes (dm_value m)))) ++ value_bytes (dm_value m).
Definition block_bytes (b : MeasurementBlock) : list N :=
  [mb_index b] ++ [mb_spec b] ++ u16le (N.of_nat (length (dmtf_bytes (mb_measurement b)))) ++
  dmtf_bytes (mb_measurement b).
Definition blocks_bytes (bs : list MeasurementBlock) : list N :=
  [N.of_nat (length bs)] ++ u24le (N.of_nat (length (concat (map block_bytes bs)))) ++ concat (map block_bytes bs).
Definition content_changed_code (c : ContentChanged) : N :=
  match c with CCNotSupported => 0 | CCTrue => 1 | CCFalse => 2 end.
(** slot in bits 3:0, content-changed in bits 5:4, bits 7:6 reserved. *)
Definition measurements_layout (total slot : N) (cc : ContentChanged) (rsvd : N) (bs : list MeasurementBlock)
           (nonce : list N) (opaque_len : N) (od : OpaqueData) (sig : list N) : list N :=
  [total] ++ [slot + 16 * content_changed_code cc + 64 * rsvd]%N ++ blocks_bytes bs ++ nonce ++
  u16le opaque_len ++ opaque_bytes od ++ sig.

(** * Well-formed values and accepted encodings, message by message *)
(** A structure with defined algorithm bits and at most 15 external algorithms. *)
Definition alg_entry_ok (p : AlgorithmRequest * list N) : Prop :=
  alg_struct_ok (fst p) /\ ext_ok 15 (snd p).
(** [l] is the 4-cell array holding [es], unused cells default. *)
Definition alg_array (l es : list AlgorithmRequest) : Prop :=
  length es <= 4 /\ l = es ++ repeat (Dhe 0) (4 - length es).
(** [bs] is a NEGOTIATE_ALGORITHMS body announcing [m]: any Length up to 128, any
    extended algorithms, only defined bits. *)
Definition negotiate_fmt (bs : list N) (m : NegotiateAlgorithms) : Prop :=
  exists len ext_asym ext_hash t,
    (len <= 128)%N /\ ext_ok 255 ext_asym /\ ext_ok 255 ext_hash /\ Forall alg_entry_ok t /\
    only_bits meas_spec_bits (na_measurement_spec m) /\
    only_bits asym_bits (na_base_asym_algo m) /\
    only_bits hash_bits (na_base_hash_algo m) /\
    na_num_requests m = N.of_nat (length t) /\
    alg_array (na_requests m) (map fst t) /\
    bs = negotiate_layout (N.of_nat (length t)) len (na_measurement_spec m) (na_base_asym_algo m)
                          (na_base_hash_algo m) ext_asym ext_hash t.
(** Exactly one algorithm is selected. *)
Definition alg_one_bit (a : AlgorithmRequest) : Prop := one_bit_of (alg_struct_bits a) (alg_struct_fixed a).
(** [bs] is an ALGORITHMS body selecting [m]: exactly one defined bit in every field. *)
Definition algorithms_fmt (bs : list N) (m : Algorithms) : Prop :=
  exists len t,
    (len < 65536)%N /\ Forall alg_entry_ok t /\ Forall (fun p => alg_one_bit (fst p)) t /\
    one_bit_of meas_spec_bits (al_measurement_spec m) /\
    one_bit_of hash_bits (al_measurement_hash m) /\
    one_bit_of asym_bits (al_base_asym m) /\
    one_bit_of hash_bits (al_base_hash m) /\
    al_num_responses m = N.of_nat (length t) /\
    alg_array (al_responses m) (map fst t) /\
    bs = algorithms_layout (N.of_nat (length t)) len (al_measurement_spec m) (al_measurement_hash m)
                           (al_base_asym m) (al_base_hash m) t.
(** Structures without external algorithms. *)
Definition no_ext (es : list AlgorithmRequest) : list (AlgorithmRequest * list N) := map (fun a => (a, [])) es.
(** The record holds [portion] in its array, zero padded. *)
Definition certificate_has {cfg : Config} (m : Certificate) (portion : list N) : Prop :=
  length portion <= MAX_CERT_CHAIN_SIZE /\ (N.of_nat (length portion) < 65536)%N /\
  cert_portion_length m = N.of_nat (length portion) /\ (cert_remainder_length m < 65536)%N /\
  cert_chain m = portion ++ zeros (MAX_CERT_CHAIN_SIZE - length portion).
(** Root hash of [ds] bytes, DER-framed certificates, at most MAX_CERT_CHAIN_DEPTH
    intermediates. *)
Definition chain_ok {cfg : Config} (ds : nat) (c : CertificateChain) : Prop :=
  length (cc_root_hash c) = ds /\ Forall der_framed (cc_intermediates c) /\ der_framed (cc_leaf_cert c) /\
  length (cc_intermediates c) <= MAX_CERT_CHAIN_DEPTH.
(** The serialization of a chain. *)
Definition chain_bytes (c : CertificateChain) : list N :=
  chain_layout (cc_root_hash c) (cc_intermediates c) (cc_leaf_cert c).
(** The vendor id matches the registry and every value fits its wire field. *)
Definition oe_wire_ok (e : OpaqueElement) : Prop :=
  vendor_matches e /\ vendor_id_ok (oe_vendor e) /\ (N.of_nat (length (oe_data e)) < 65536)%N.
(** ... and the data fits the element's storage. *)
Definition oe_ok {cfg : Config} (e : OpaqueElement) : Prop :=
  oe_wire_ok e /\ length (oe_data e) <= MAX_OPAQUE_ELEMENT_DATA_SIZE.
(** At most MAX_OPAQUE_ELEMENTS such elements. *)
Definition od_ok {cfg : Config} (d : OpaqueData) : Prop :=
  Forall oe_ok d /\ length d <= MAX_OPAQUE_ELEMENTS /\ (N.of_nat (length d) < 256)%N.
(** Fields of CHALLENGE_AUTH in range (the parser's bound on the slot is <= NUM_SLOTS). *)
Definition ca_fields_ok {cfg : Config} (ds ss : nat) (m : ChallengeAuth) : Prop :=
  (ca_slot m < 16)%N /\ N.to_nat (ca_slot m) <= NUM_SLOTS /\ length (ca_cert_chain_hash m) = ds /\
  nonce_ok (ca_nonce m) /\ length (ca_measurement_summary_hash m) = ds /\
  od_ok (ca_opaque_data m) /\ length (ca_signature m) = ss.
(** The CHALLENGE_AUTH body of [m] with given reserved bits and opaque length field. *)
Definition ca_bytes (rsvd olen : N) (m : ChallengeAuth) : list N :=
  challenge_auth_layout (ca_slot m) rsvd (ca_use_mutual_auth m) (ca_slot_mask m) (ca_cert_chain_hash m)
    (ca_nonce m) (ca_measurement_summary_hash m) olen (ca_opaque_data m) (ca_signature m).
(** What the parser accepts: the data byte is free for errors that do not use
    it, and vendor data is not read. *)
Definition error_accepts (bs : list N) (m : ErrorMsg) : Prop :=
  error_ok m /\ (match m with VendorDef _ v => vd_opaque v = [] | _ => True end) /\
  exists d, (match error_data m with Some d' => d = d' | None => True end) /\
            bs = [error_code m] ++ [d] ++ error_ext m.
(** Valid index; nonce and slot present exactly when a signature is requested. *)
Definition gm_ok {cfg : Config} (m : GetMeasurements) : Prop :=
  index_ok (gm_index m) /\
  if ra_signature_requested (gm_attributes m)
  then N.to_nat (gm_slot_id m) < NUM_SLOTS /\ exists n, gm_nonce m = Some n /\ nonce_ok n
  else gm_nonce m = None /\ gm_slot_id m = 0%N.
(** The representation bit agrees with the value, whose size is within its limit. *)
Definition dm_ok {cfg : Config} (m : DmtfMeasurement) : Prop :=
  match dm_representation m, dm_value m with
  | ReprDigest, MVDigest d => length d <= MAX_DIGEST_SIZE /\ (N.of_nat (length d) < 65536)%N
  | ReprRawBitStream, MVBitStream b => length b <= MAX_MEASUREMENT_SIZE /\ (N.of_nat (length b) < 65536)%N
  | _, _ => False
  end.
(** DMTF specification (1) and a valid measurement whose size fits 16 bits. *)
Definition mb_ok {cfg : Config} (b : MeasurementBlock) : Prop :=
  mb_spec b = 1%N /\ dm_ok (mb_measurement b) /\ (N.of_nat (length (dmtf_bytes (mb_measurement b))) < 65536)%N.
(** The array holding exactly these blocks. *)
Definition mbs_has {cfg : Config} (m : MeasurementBlocks) (bl : list MeasurementBlock) : Prop :=
  length bl <= MAX_MEASUREMENT_BLOCKS /\ mbs_len m = length bl /\
  mbs_blocks m = map Some bl ++ repeat None (MAX_MEASUREMENT_BLOCKS - length bl).
(** Size in bytes of the measurement record. *)
Definition record_len (bl : list MeasurementBlock) : N := N.of_nat (length (concat (map block_bytes bl))).
(** The record fits its count and length fields and the parser's size limit. *)
Definition mbs_fits {cfg : Config} (bl : list MeasurementBlock) : Prop :=
  (N.of_nat (length bl) < 256 /\ record_len bl < 16777216 /\
   record_len bl <= N.of_nat MAX_MEASUREMENT_SIZE * N.of_nat MAX_MEASUREMENT_BLOCKS)%N.
(** An optional signature on the wire. *)
Definition sig_bytes (s : option (list N)) : list N := match s with Some x => x | None => [] end.
(** Fields of MEASUREMENTS in range (the parser's bound on the slot is <= NUM_SLOTS). *)
Definition meas_ok {cfg : Config} (sr : bool) (ss : nat) (m : Measurements) (bl : list MeasurementBlock) : Prop :=
  N.to_nat (m_total_blocks m) <= MAX_MEASUREMENT_BLOCKS /\
  (m_slot_id m < 16)%N /\ N.to_nat (m_slot_id m) <= NUM_SLOTS /\
  mbs_has (m_blocks m) bl /\ mbs_fits bl /\ Forall mb_ok bl /\ nonce_ok (m_nonce m) /\ od_ok (m_opaque_data m) /\
  (if sr then exists s, m_signature m = Some s /\ length s = ss else m_signature m = None).
(** The MEASUREMENTS body of [m] with given reserved bits and opaque length field. *)
Definition meas_bytes (rsvd olen : N) (bl : list MeasurementBlock) (m : Measurements) : list N :=
  measurements_layout (m_total_blocks m) (m_slot_id m) (m_content_changed m) rsvd bl (m_nonce m) olen
    (m_opaque_data m) (sig_bytes (m_signature m)).

(** * Round trips *)
(** Whatever buffer a message is written to, parsing what follows the two header
    bytes, from the written part alone or from the whole buffer, gives [m] back. *)
Definition round_trips {E F A} (wr : list N -> res E nat * list N) (parse : list N -> res F A) (m : A) : Prop :=
  forall buf n out, bytes buf -> wr buf = (Ok n, out) ->
    parse (skipn 2 (firstn n out)) = Ok m /\ parse (skipn 2 out) = Ok m.

(** * Inputs on which a parser panics *)
(** The element without its padding. *)
Definition oe_raw (e : OpaqueElement) : list N :=
  [registry_code (oe_registry e)] ++ [N.of_nat (length (vendor_id_bytes (oe_vendor e)))] ++
  vendor_id_bytes (oe_vendor e) ++ u16le (N.of_nat (length (oe_data e))) ++ oe_data e.
(** An element whose data does not fit the array. *)
Definition oe_oversized {cfg : Config} (inp : list N) : Prop :=
  exists e rest, oe_wire_ok e /\ MAX_OPAQUE_ELEMENT_DATA_SIZE < length (oe_data e) /\ inp = oe_raw e ++ rest.
(** More elements than the array has, or an element with too much data. *)
Definition od_overflow {cfg : Config} (inp : list N) : Prop :=
  exists n es rest, inp = [n] ++ zeros 3 ++ concat (map opaque_element_bytes es) ++ rest /\
    Forall oe_ok es /\ length es < N.to_nat n /\ length es <= MAX_OPAQUE_ELEMENTS /\
    (oe_oversized rest \/
     length es = MAX_OPAQUE_ELEMENTS /\ exists e rest', oe_ok e /\ rest = opaque_element_bytes e ++ rest').
(** Opaque data that overflows its array, after well-formed fields. *)
Definition ca_overflow {cfg : Config} (ds : nat) (inp : list N) : Prop :=
  exists slot rsvd mutual mask h n s olen rest,
    (slot < 16)%N /\ N.to_nat slot <= NUM_SLOTS /\ (rsvd < 8)%N /\ length h = ds /\ nonce_ok n /\ length s = ds /\
    (olen <= 1024)%N /\ od_overflow rest /\
    inp = [slot + 16 * rsvd + 128 * bit mutual]%N ++ [mask] ++ h ++ n ++ s ++ u16le olen ++ rest.
(** More well-formed blocks than the array has. *)
Definition mbs_overflow {cfg : Config} (inp : list N) : Prop :=
  exists n size bl b rest, inp = [n] ++ u24le size ++ concat (map block_bytes bl) ++ block_bytes b ++ rest /\
    (size < 16777216 /\ size <= N.of_nat MAX_MEASUREMENT_SIZE * N.of_nat MAX_MEASUREMENT_BLOCKS)%N /\
    Forall mb_ok bl /\ mb_ok b /\ length bl = MAX_MEASUREMENT_BLOCKS /\ MAX_MEASUREMENT_BLOCKS < N.to_nat n.
(** More blocks, or more opaque data, than the arrays hold, after well-formed fields. *)
Definition meas_overflow {cfg : Config} (inp : list N) : Prop :=
  exists total slot cc rsvd rest,
    N.to_nat total <= MAX_MEASUREMENT_BLOCKS /\ (slot < 16)%N /\ N.to_nat slot <= NUM_SLOTS /\ (rsvd < 4)%N /\
    inp = [total] ++ [slot + 16 * content_changed_code cc + 64 * rsvd]%N ++ rest /\
    (mbs_overflow rest \/
     exists bl n olen rest', mbs_fits bl /\ length bl <= MAX_MEASUREMENT_BLOCKS /\ Forall mb_ok bl /\ nonce_ok n /\
       (olen <= 1024)%N /\ od_overflow rest' /\ rest = blocks_bytes bl ++ n ++ u16le olen ++ rest').
(** A chain-shaped buffer in which something that is not a SEQUENCE stands
    where a certificate should start. *)
Definition chain_bad_tag {cfg : Config} (ds : nat) (buf : list N) : Prop :=
  exists root inters b rest, length root = ds /\ Forall der_framed inters /\
    length inters <= MAX_CERT_CHAIN_DEPTH /\ b <> 0x30%N /\ (N.of_nat (length buf) < 65536)%N /\
    buf = u16le (N.of_nat (length buf)) ++ zeros 2 ++ root ++ concat inters ++ b :: rest.
