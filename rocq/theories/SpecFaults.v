(** What is wrong with a message: for every kind of message a table of checks over
    the bytes of its body, in the order of the fields.  The first row whose
    condition does not hold says how the parser ends: with that row's error, or
    with a panic; a message on which every row holds is accepted.  Written over
    byte positions only; no reader or parser of the model occurs here. *)
From Verif Require Import Base Config Encoding MsgCommon MsgVersion MsgCapabilities MsgAlgorithms MsgDigest
     MsgCertificates MsgChallenge MsgError MsgMeasurements SpecWire SpecChecks.

(** The rows of a field that is itself a table, its errors wrapped by [f]. *)
Definition wrap_verdict {E F : Type} (f : E -> F) (v : verdict E) : verdict F :=
  match v with
  | Answer => Answer
  | Refuse why => Refuse (fun x => exists e, x = f e /\ why e)
  | Crash => Crash
  end.
Definition under {E F : Type} (f : E -> F) (t : list (check E)) : list (check F) :=
  map (fun c => (fst c, wrap_verdict f (snd c))) t.

Section Faults.
Context {cfg : Config}.
Variable buf : list N.

(** Bytes and little-endian numbers at a position. *)
Definition byte_at (k : nat) : N := nth k buf 0%N.
Definition u16_at (k : nat) : N := (byte_at k + 256 * byte_at (k + 1))%N.
Definition u24_at (k : nat) : N := (byte_at k + 256 * byte_at (k + 1) + 65536 * byte_at (k + 2))%N.
Definition u32_at (k : nat) : N :=
  (byte_at k + 256 * byte_at (k + 1) + 65536 * byte_at (k + 2) + 16777216 * byte_at (k + 3))%N.
Definition len8 (k : nat) : nat := N.to_nat (byte_at k).
Definition len16 (k : nat) : nat := N.to_nat (u16_at k).

(** A row that refuses with exactly this error, a row that panics. *)
Definition or_else {E : Type} (c : Prop) (e : E) : check E := (c, Refuse (is e)).
Definition or_crash {E : Type} (c : Prop) : check E := (c, Crash).

(** [n] bytes at [k] are there; [n] bytes at [k] are there and zero (byte by
    byte).  [rd] wraps the error of the byte reader. *)
Definition has {E : Type} (rd : ReadError -> E) (k n : nat) : list (check E) :=
  [or_else (k + n <= length buf) (rd BufferEmpty)].
Definition rsvd {E : Type} (rd : ReadError -> E) (k n : nat) : list (check E) :=
  flat_map (fun i => has rd i 1 ++ [or_else (byte_at i = 0%N) (rd ReservedByteNotZero)]) (seq k n).

(** * GET_VERSION, GET_DIGESTS *)
Definition two_reserved_table : list (check ReadError) := rsvd (fun e => e) 0 2.

(** * VERSION *)
Definition version_table : list (check ParseVersionError) :=
  rsvd PVRead 0 3 ++ has PVRead 3 1 ++
  [or_else (byte_at 3 <= 2)%N TooManyVersionsReceived] ++
  has PVRead 4 (2 * len8 3).

(** * GET_CAPABILITIES, CAPABILITIES *)
Definition flags_table (defined : list N) : list (check ParseCapabilitiesError) :=
  rsvd CapRead 0 3 ++ has CapRead 3 1 ++ rsvd CapRead 4 2 ++ has CapRead 6 4 ++
  [or_else (only_bits defined (u32_at 6)) CapInvalidBitsSet].

(** * NEGOTIATE_ALGORITHMS, ALGORITHMS *)
(** The bits of the fixed algorithms of a structure of this type. *)
Definition struct_bits (type : N) : list N :=
  if (type =? 2)%N then [0; 1; 2; 3; 4; 5]%N
  else if (type =? 3)%N then [0; 1; 2]%N
  else if (type =? 4)%N then [0; 1; 2; 3; 4; 5; 6; 7; 8]%N
  else [0]%N.
(** A structure at [k]: type, counts, fixed algorithms, 4 bytes per external one. *)
Definition ext_count (k : nat) : nat := N.to_nat (byte_at (k + 1) mod 16).
Definition struct_end (k : nat) : nat := k + 4 + 4 * ext_count k.
Definition struct_table (k : nat) : list (check ParseAlgorithmRequestError) :=
  has PARRead k 1 ++
  [or_else (2 <= byte_at k <= 5)%N InvalidAlgorithmType] ++
  has PARRead (k + 1) 1 ++
  [or_else (byte_at (k + 1) / 16 = 2)%N IncorrectFixedAlgCount] ++
  has PARRead (k + 2) 2 ++
  [or_else (only_bits (struct_bits (byte_at k)) (u16_at (k + 2))) InvalidFixedAlgorithm] ++
  has PARRead (k + 4) (4 * ext_count k).
Fixpoint structs_table {E : Type} (one : nat -> list (check E)) (n k : nat) : list (check E) :=
  match n with
  | O => []
  | S n => one k ++ structs_table one n (struct_end k)
  end.
Definition negotiate_table : list (check ParseNegotiateAlgorithmsError) :=
  has PNARead 0 1 ++
  [or_else (byte_at 0 <= 4)%N MaxAlgorithmRequestsExceeded] ++
  rsvd PNARead 1 1 ++
  has PNARead 2 2 ++
  [or_else (u16_at 2 <= 128)%N PNATooLarge] ++
  has PNARead 4 1 ++
  [or_else (only_bits meas_spec_bits (byte_at 4)) InvalidMeasurementSpec] ++
  rsvd PNARead 5 1 ++
  has PNARead 6 4 ++
  [or_else (only_bits asym_bits (u32_at 6)) InvalidBaseAsymAlgo] ++
  has PNARead 10 4 ++
  [or_else (only_bits hash_bits (u32_at 10)) InvalidBaseHashAlgo] ++
  rsvd PNARead 14 12 ++
  has PNARead 26 1 ++
  has PNARead 27 1 ++
  rsvd PNARead 28 2 ++
  has PNARead 30 (4 * len8 26) ++
  has PNARead (30 + 4 * len8 26) (4 * len8 27) ++
  structs_table (fun k => under PNAAlgorithmRequest (struct_table k)) (len8 0) (30 + 4 * len8 26 + 4 * len8 27).

(** A field of [v] in which one of the [defined] algorithms is to be selected. *)
Definition selection {E : Type} (defined : list N) (v : N) (invalid more : E) : list (check E) :=
  [or_else (only_bits defined v) invalid; or_else (exists i, v = 2 ^ i)%N more].
(** The error for a structure that does not select exactly one algorithm. *)
Definition more_than_one (type : N) : ParseAlgorithmResponseError :=
  if (type =? 2)%N then MoreThanOneDheAlgoSelected
  else if (type =? 3)%N then MoreThanOneAeadAlgoSelected
  else if (type =? 4)%N then RspMoreThanOneBaseAsymAlgoSelected
  else MoreThanOneKeySchedule.
Definition selected_struct_table (k : nat) : list (check ParseAlgorithmsError) :=
  under PAAlgorithmsRequest (struct_table k) ++
  [or_else (exists i, u16_at (k + 2) = 2 ^ i)%N (PAAlgorithmsResponse (more_than_one (byte_at k)))].
Definition algorithms_table : list (check ParseAlgorithmsError) :=
  has PARead 0 1 ++
  [or_else (byte_at 0 <= 4)%N MaxAlgorithmResponsesExceeded] ++
  rsvd PARead 1 1 ++
  has PARead 2 2 ++
  has PARead 4 1 ++
  selection meas_spec_bits (byte_at 4) InvalidMeasurementSpecSelected MoreThanOneMeasurementSpecSelected ++
  rsvd PARead 5 1 ++
  has PARead 6 4 ++
  selection hash_bits (u32_at 6) InvalidMeasurementHashAlgoSelected MoreThanOneMeasurementHashAlgoSelected ++
  has PARead 10 4 ++
  selection asym_bits (u32_at 10) InvalidBaseAsymAlgoSelected MoreThanOneBaseAsymAlgoSelected ++
  has PARead 14 4 ++
  selection hash_bits (u32_at 14) InvalidBaseHashAlgoSelected MoreThanOneBaseHashAlgoSelected ++
  rsvd PARead 18 16 ++
  structs_table selected_struct_table (len8 0) 34.

(** * DIGESTS; [size] is the negotiated digest size. *)
Definition digests_table (size : nat) : list (check ReadError) :=
  rsvd (fun e => e) 0 1 ++ has (fun e => e) 1 1 ++
  has (fun e => e) 2 (size * length (filter (slot_in_mask (byte_at 1)) (seq 0 NUM_SLOTS))).

(** * GET_CERTIFICATE, CERTIFICATE *)
Definition get_certificate_table : list (check ReadError) :=
  has (fun e => e) 0 1 ++ rsvd (fun e => e) 1 1 ++ has (fun e => e) 2 2 ++ has (fun e => e) 4 2.
Definition certificate_table : list (check ParseCertificateError) :=
  has PCRead 0 1 ++ rsvd PCRead 1 1 ++ has PCRead 2 2 ++
  [or_else (len16 2 <= MAX_CERT_CHAIN_SIZE) PCTooLarge] ++
  has PCRead 4 2 ++
  has PCRead 6 (len16 2).

(** * Certificate chains *)
(** The DER header at [k], and where what it announces ends. *)
Definition der_table (k : nat) : list (check ParseCertificateChainError) :=
  has PCCRead k 1 ++
  [or_crash (byte_at k = 0x30%N)] ++
  has PCCRead (k + 1) 1 ++
  (if (byte_at (k + 1) <? 128)%N then []
   else if (byte_at (k + 1) =? 0x81)%N then
     has PCCRead (k + 2) 1 ++ [or_else (128 <= byte_at (k + 2))%N BadDerEncoding]
   else if (byte_at (k + 1) =? 0x82)%N then
     has PCCRead (k + 2) 2 ++ [or_else (256 <= 256 * byte_at (k + 2) + byte_at (k + 3))%N BadDerEncoding]
   else [or_else False BadDerEncoding]).
Definition der_end (k : nat) : nat :=
  if (byte_at (k + 1) <? 128)%N then k + 2 + len8 (k + 1)
  else if (byte_at (k + 1) =? 0x81)%N then k + 3 + len8 (k + 2)
  else k + 4 + N.to_nat (256 * byte_at (k + 2) + byte_at (k + 3)).
(** Certificates from [k] on, at most [more] before the last one. *)
Fixpoint certs_table (more k : nat) : list (check ParseCertificateChainError) :=
  der_table k ++
  [or_else (der_end k <= length buf) LengthMismatch] ++
  (if der_end k =? length buf then []
   else match more with
        | O => [or_else False MaxDepthExceeded]
        | S more => certs_table more (der_end k)
        end).
Definition chain_table (size : nat) : list (check ParseCertificateChainError) :=
  has PCCRead 0 2 ++
  [or_else (len16 0 = length buf) LengthMismatch] ++
  rsvd PCCRead 2 2 ++
  has PCCRead 4 size ++
  certs_table MAX_CERT_CHAIN_DEPTH (4 + size).

(** * CHALLENGE *)
Definition nonce_len : nat := if feature_rand then 32 else 0.
Definition challenge_table : list (check ParseChallengeError) :=
  has PChRead 0 1 ++ has PChRead 1 1 ++
  [or_else (In (byte_at 1) [0; 1; 255]%N) InvalidMeasurementHashType] ++
  has PChRead 2 nonce_len.

(** * Opaque data *)
(** Length of the vendor ids of a registry, by its code. *)
Definition id_len (registry : N) : N :=
  if (registry =? 0)%N then 0%N
  else if (registry =? 4)%N || (registry =? 5)%N then 4%N
  else 2%N.
(** An element at [k]: registry, vendor id length, vendor id, data length, data,
    zero padding to a multiple of 4.  More data than the element's storage
    holds panics. *)
Definition element_data (k : nat) : nat := k + 4 + len8 (k + 1).
Definition element_size (k : nat) : nat := 4 + len8 (k + 1) + len16 (k + 2 + len8 (k + 1)).
Definition element_pad (k : nat) : nat := (4 - element_size k mod 4) mod 4.
Definition element_end (k : nat) : nat := k + element_size k + element_pad k.
Definition element_table (k : nat) : list (check ParseOpaqueElementError) :=
  has POERead k 1 ++
  [or_else (byte_at k <= 8)%N POEParseVendorRegistryId] ++
  has POERead (k + 1) 1 ++
  [or_else (byte_at (k + 1) = id_len (byte_at k)) POEInvalidVendorId] ++
  has (fun e => POEParseVendorId (PVIRead e)) (k + 2) (len8 (k + 1)) ++
  has POERead (k + 2 + len8 (k + 1)) 2 ++
  has POERead (element_data k) (len16 (k + 2 + len8 (k + 1))) ++
  [or_crash (len16 (k + 2 + len8 (k + 1)) <= MAX_OPAQUE_ELEMENT_DATA_SIZE)] ++
  rsvd POERead (k + element_size k) (element_pad k).
(** [n] elements from [k] on; [i] are there already. *)
Fixpoint elements_table (n i k : nat) : list (check ParseOpaqueDataError) :=
  match n with
  | O => []
  | S n => under PODParseOpaqueElement (element_table k) ++ [or_crash (i < MAX_OPAQUE_ELEMENTS)] ++
           elements_table n (S i) (element_end k)
  end.
Fixpoint elements_end (n k : nat) : nat := match n with O => k | S n => elements_end n (element_end k) end.
Definition opaque_table (k : nat) : list (check ParseOpaqueDataError) :=
  has PODRead k 1 ++ rsvd PODRead (k + 1) 3 ++ elements_table (len8 k) 0 (k + 4).
Definition opaque_end (k : nat) : nat := elements_end (len8 k) (k + 4).

(** * CHALLENGE_AUTH; the slot is reported under the error of the opaque data. *)
Definition challenge_auth_table (ds ss : nat) : list (check ParseChallengeAuthError) :=
  has PCARead 0 1 ++
  [or_else (N.to_nat (byte_at 0 mod 16) <= NUM_SLOTS) PCAMaxOpaqueDataSizeExceeded] ++
  has PCARead 1 1 ++
  has PCARead 2 ds ++
  has PCARead (2 + ds) nonce_len ++
  has PCARead (2 + ds + nonce_len) ds ++
  (let k := 2 + ds + nonce_len + ds in
   has PCARead k 2 ++
   [or_else (len16 k <= 1024) PCAMaxOpaqueDataSizeExceeded] ++
   under PCAParseOpaqueData (opaque_table (k + 2)) ++
   has PCARead (opaque_end (k + 2)) ss).

(** * ERROR *)
Definition known_errors : list N :=
  [0x01; 0x03; 0x04; 0x05; 0x06; 0x07; 0x08; 0x09; 0x0A; 0x0B; 0x0C; 0x0D; 0x0E; 0x0F; 0x10; 0x41; 0x42; 0x43; 0xFF]%N.
Definition error_table : list (check ParseErrorError) :=
  has PERead 0 1 ++ has PERead 1 1 ++
  [or_else (In (byte_at 0) known_errors) InvalidErrorCode] ++
  (if (byte_at 0 =? 0x0D)%N then has PERead 2 4
   else if (byte_at 0 =? 0x0F)%N then has PERead 2 1
   else if (byte_at 0 =? 0x42)%N then has PERead 2 4
   else if (byte_at 0 =? 0xFF)%N then
     [or_else (byte_at 1 <= 8)%N PEParseVendorRegistryId] ++
     has PERead 2 1 ++
     [or_else (In (byte_at 2) [0; 2; 4]%N) (PEParseVendorId PVIInvalidLen)] ++
     has (fun e => PEParseVendorId (PVIRead e)) 3 (len8 2)
   else []).

(** * GET_MEASUREMENTS *)
Definition get_measurements_table : list (check ParseGetMeasurementsError) :=
  has PGMRead 0 1 ++
  [or_else (byte_at 0 < 4)%N ReservedBitsNotZero] ++
  has PGMRead 1 1 ++
  (if (byte_at 0 mod 2 =? 1)%N then
     has PGMRead 2 nonce_len ++ has PGMRead (2 + nonce_len) 1 ++
     [or_else (len8 (2 + nonce_len) < NUM_SLOTS) PGMMaxSlotNumberExceeded]
   else []).

(** * MEASUREMENTS *)
(** A DMTF measurement at [k]: type and representation, size, value. *)
Definition dmtf_table (k : nat) : list (check ParseDmtfMeasurementError) :=
  has PDMRead k 1 ++
  [or_else (byte_at k mod 128 <= 7)%N PDMType] ++
  has PDMRead (k + 1) 2 ++
  (if (byte_at k <? 128)%N then
     [or_else (len16 (k + 1) <= MAX_DIGEST_SIZE) PDMDigestTooLarge] ++ has PDMRead (k + 3) (len16 (k + 1))
   else
     [or_else (len16 (k + 1) <= MAX_MEASUREMENT_SIZE) (PDMBitStream PBSMaxSizeExceeded)] ++
     has (fun e => PDMBitStream (PBSRead e)) (k + 3) (len16 (k + 1))).
(** A block at [k]: index, specification, size, measurement. *)
Definition block_end (k : nat) : nat := k + 7 + len16 (k + 5).
Definition block_table (k : nat) : list (check ParseMeasurementBlockError) :=
  has PMBRead k 1 ++ has PMBRead (k + 1) 1 ++
  [or_else (byte_at (k + 1) = 1%N) PMBInvalidMeasurementSpec] ++
  has PMBRead (k + 2) 2 ++
  under PMBMeasurement (dmtf_table (k + 4)) ++
  [or_else (len16 (k + 2) = 3 + len16 (k + 5)) PMBMeasurementSizeMismatch].
Fixpoint record_table (n i k : nat) : list (check ParseMeasurementBlocksError) :=
  match n with
  | O => []
  | S n => under PMBsBlock (block_table k) ++ [or_crash (i < MAX_MEASUREMENT_BLOCKS)] ++
           record_table n (S i) (block_end k)
  end.
Fixpoint record_end (n k : nat) : nat := match n with O => k | S n => record_end n (block_end k) end.
Definition blocks_end (k : nat) : nat := record_end (len8 k) (k + 4).
Definition blocks_table (k : nat) : list (check ParseMeasurementBlocksError) :=
  has PMBsRead k 1 ++ has PMBsRead (k + 1) 3 ++
  [or_else (u24_at (k + 1) <= N.of_nat MAX_MEASUREMENT_SIZE * N.of_nat MAX_MEASUREMENT_BLOCKS)%N PMBsMaxSizeExceeded] ++
  record_table (len8 k) 0 (k + 4) ++
  [or_else (N.to_nat (u24_at (k + 1)) = blocks_end k - (k + 4)) PMBsMeasurementSizeMismatch].
Definition measurements_table (signed : bool) (ss : nat) : list (check ParseMeasurementsError) :=
  has PMRead 0 1 ++
  [or_else (len8 0 <= MAX_MEASUREMENT_BLOCKS) PMMaxBlocksExceeded] ++
  has PMRead 1 1 ++
  [or_else (N.to_nat (byte_at 1 mod 16) <= NUM_SLOTS) PMMaxSlotNumberExceeded;
   or_else (byte_at 1 / 16 mod 4 <= 2)%N PMContentChanged] ++
  under PMBlocks (blocks_table 2) ++
  has PMRead (blocks_end 2) nonce_len ++
  (let k := blocks_end 2 + nonce_len in
   has PMRead k 2 ++
   [or_else (len16 k <= 1024) PMMaxOpaqueDataSizeExceeded] ++
   under PMOpaque (opaque_table (k + 2)) ++
   (if signed then has PMRead (opaque_end (k + 2)) ss else [])).
End Faults.
