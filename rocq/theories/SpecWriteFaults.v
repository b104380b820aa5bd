(** What is wrong with a message to be written, or with the buffer it is written
    to: for every kind of message a table of checks over the values of its fields
    and the size of the buffer.  The first row whose condition does not hold says
    how the writer ends: with that row's error, or with a panic; when every row
    holds it succeeds.  No writer of the model occurs here. *)
From Verif Require Import Base Config Encoding MsgCommon MsgVersion MsgCapabilities MsgAlgorithms MsgDigest
     MsgCertificates MsgChallenge MsgError MsgMeasurements SpecWire SpecChecks SpecFaults.

Section WriteFaults.
Context {cfg : Config}.
Variable room : nat. (* size of the buffer *)

(** The first [n] bytes of the message fit the buffer. *)
Definition up_to {E : Type} (n : nat) (full : E) : list (check E) := [or_else (n <= room) full].

(** * Messages of a fixed or directly visible size *)
Definition plain_write_table (size : nat) : list (check BufferFullError) := up_to size BufferFull.
Definition error_size (m : ErrorMsg) : nat :=
  match m with
  | ResponseTooLarge _ | RespNotReady _ => 8
  | LargeResponse _ => 5
  | VendorDef _ v => 5 + length (vendor_id_bytes (vd_vendor_id v)) + length (vd_opaque v)
  | _ => 4
  end.

(** * NEGOTIATE_ALGORITHMS, ALGORITHMS: [n] structures of an array of [cells],
    after [base] bytes. *)
Definition structures_write_table (base n cells : nat) : list (check BufferFullError) :=
  up_to 4 BufferFull ++ [or_crash (n <= cells)] ++ up_to (base + 4 * n) BufferFull.

(** * DIGESTS: the digests of the slots in the mask, from byte [k] on. *)
Fixpoint digests_rows (d : Digests) (slots : list nat) (k : nat) : list (check BufferFullError) :=
  match slots with
  | [] => []
  | i :: slots =>
    match nth_error (d_digests d) i with
    | Some (Some digest) => up_to (k + length digest) BufferFull ++ digests_rows d slots (k + length digest)
    | _ => [or_crash False]
    end
  end.
Definition digests_write_table (d : Digests) : list (check BufferFullError) :=
  up_to 4 BufferFull ++ digests_rows d (filter (slot_in_mask (d_slot_mask d)) (seq 0 NUM_SLOTS)) 4.
Definition digests_size (d : Digests) : nat :=
  4 + length (concat (map (slot_digest d) (filter (slot_in_mask (d_slot_mask d)) (seq 0 NUM_SLOTS)))).

(** * CERTIFICATE *)
Definition certificate_write_table (m : Certificate) : list (check BufferFullError) :=
  let n := N.to_nat (cert_portion_length m) in
  up_to 8 BufferFull ++ [or_crash (n <= length (cert_chain m))] ++ up_to (8 + n) BufferFull.

(** * Certificate chains: their size has to fit a u16. *)
Definition chain_write_table (c : CertificateChain) : list (check WriteCertificateChainError) :=
  [or_else (N.of_nat (length (chain_bytes c)) < 65536)%N MaxSizeExceeded] ++ up_to (length (chain_bytes c)) WCCBufferFull.

(** * Opaque data from byte [k] on *)
Definition padded (n : nat) : nat := n + (4 - n mod 4) mod 4.
Definition written_size (e : OpaqueElement) : nat :=
  padded (4 + length (vendor_id_bytes (oe_vendor e)) + length (oe_data e)).
(** The size counted for it beforehand. *)
Definition counted_size (e : OpaqueElement) : nat := padded (4 + registry_id_len (oe_registry e) + length (oe_data e)).
Definition counted_sizes (d : OpaqueData) : nat := 4 + fold_right (fun e n => counted_size e + n) 0 d.
Fixpoint elements_write_table (d : OpaqueData) (k : nat) : list (check WriteOpaqueElementError) :=
  match d with
  | [] => []
  | e :: d =>
    up_to (k + 2 + length (vendor_id_bytes (oe_vendor e))) WOEBufferFull ++
    [or_else (vendor_matches e) WOEInvalidVendorId] ++
    up_to (k + written_size e) WOEBufferFull ++
    elements_write_table d (k + written_size e)
  end.
Definition opaque_write_table (d : OpaqueData) (k : nat) : list (check WriteOpaqueElementError) :=
  up_to (k + 4) WOEBufferFull ++ elements_write_table d (k + 4).
Definition written_sizes (d : OpaqueData) : nat := 4 + fold_right (fun e n => written_size e + n) 0 d.

(** * CHALLENGE_AUTH *)
Definition challenge_auth_write_table (m : ChallengeAuth) : list (check WriteChallengeAuthError) :=
  let k := 6 + length (ca_cert_chain_hash m) + length (ca_nonce m) + length (ca_measurement_summary_hash m) in
  up_to 2 WCABufferFull ++
  [or_else (N.to_nat (ca_slot m) < NUM_SLOTS) WCAMaxSlotNumberExceeded;
   or_else (counted_sizes (ca_opaque_data m) <= 1024) WCAMaxOpaqueDataSizeExceeded] ++
  up_to k WCABufferFull ++
  under WCAWriteOpaqueElement (opaque_write_table (ca_opaque_data m) k) ++
  up_to (k + written_sizes (ca_opaque_data m) + length (ca_signature m)) WCABufferFull.
Definition challenge_auth_size (m : ChallengeAuth) : nat :=
  6 + length (ca_cert_chain_hash m) + length (ca_nonce m) + length (ca_measurement_summary_hash m) +
  written_sizes (ca_opaque_data m) + length (ca_signature m).

(** * GET_MEASUREMENTS: the value of an index has to be of the index's kind, and
    the nonce is there when a signature is requested. *)
Definition index_rows (i : MeasurementIndex) : list (check WriteGetMeasurementsError) :=
  match i with
  | ImplementationDefined v => [or_else (0x01 <= v <= 0xEF)%N (WGMMeasurementIndex InvalidImplementationDefinedIndex)]
  | Reserved v => [or_else (0xF0 <= v <= 0xFC)%N (WGMMeasurementIndex InvalidReservedIndex)]
  | _ => []
  end.
Definition optional_size (o : option (list N)) : nat := match o with Some n => length n | None => 0 end.
Definition get_measurements_write_table (m : GetMeasurements) : list (check WriteGetMeasurementsError) :=
  up_to 3 WGMBufferFull ++
  index_rows (gm_index m) ++
  up_to 4 WGMBufferFull ++
  (if ra_signature_requested (gm_attributes m) then
     [or_crash (gm_nonce m <> None)] ++ up_to (5 + optional_size (gm_nonce m)) WGMBufferFull
   else []).
Definition get_measurements_size (m : GetMeasurements) : nat :=
  if ra_signature_requested (gm_attributes m) then 5 + optional_size (gm_nonce m) else 4.

(** * MEASUREMENTS *)
(** The value of a measurement. *)
Definition value_size (b : MeasurementBlock) : nat := length (value_bytes (dm_value (mb_measurement b))).
(** The first [n] cells are there and filled with [bl]. *)
Definition cells_filled (n : nat) (cells : list (option MeasurementBlock)) (bl : list MeasurementBlock) : Prop :=
  n <= length cells /\ firstn n cells = map Some bl.
Fixpoint blocks_write_table {E : Type} (full : E) (bl : list MeasurementBlock) (k : nat) : list (check E) :=
  match bl with
  | [] => []
  | b :: bl =>
    up_to (k + 2) full ++
    [or_crash (N.of_nat (3 + value_size b) < 65536)%N] ++
    up_to (k + 7 + value_size b) full ++
    blocks_write_table full bl (k + 7 + value_size b)
  end.
Definition blocks_size (bl : list MeasurementBlock) : nat := fold_right (fun b n => 7 + value_size b + n) 0 bl.
(** What the first [n] cells hold, when they are all filled. *)
Fixpoint held (cells : list (option MeasurementBlock)) : list MeasurementBlock :=
  match cells with Some b :: cells => b :: held cells | _ => [] end.
Definition measurements_write_table (m : Measurements) : list (check WriteMeasurementsError) :=
  let n := mbs_len (m_blocks m) in
  let bl := held (firstn n (mbs_blocks (m_blocks m))) in
  let k := 8 + blocks_size bl + length (m_nonce m) in
  up_to 4 WMBufferFull ++
  [or_crash (n < 256)] ++
  up_to 5 WMBufferFull ++
  [or_crash (exists bl, cells_filled n (mbs_blocks (m_blocks m)) bl)] ++
  up_to 8 WMBufferFull ++
  blocks_write_table WMBufferFull bl 8 ++
  up_to k WMBufferFull ++
  [or_crash (N.of_nat (counted_sizes (m_opaque_data m)) < 65536)%N] ++
  up_to (k + 2) WMBufferFull ++
  under WMWriteOpaqueElement (opaque_write_table (m_opaque_data m) (k + 2)) ++
  up_to (k + 2 + written_sizes (m_opaque_data m) + optional_size (m_signature m)) WMBufferFull.
Definition measurements_size (m : Measurements) : nat :=
  8 + blocks_size (held (firstn (mbs_len (m_blocks m)) (mbs_blocks (m_blocks m)))) + length (m_nonce m) + 2 +
  written_sizes (m_opaque_data m) + optional_size (m_signature m).
End WriteFaults.
