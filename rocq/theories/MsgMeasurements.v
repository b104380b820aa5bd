(** Model of src/msgs/measurements.rs. *)
From Verif Require Import Base Config Encoding MsgCommon MsgAlgorithms MsgChallenge.

(** src/msgs/measurements.rs:172-173, 859-860 *)
Definition GetMeasurements_id := mkMsgId 0x12 0xE0.
Definition Measurements_id := mkMsgId 0x12 0x60.

Section Measurements.
Context {cfg : Config}.

(** src/msgs/measurements.rs:19-23 *)
Record RequestAttributes := mkRA { ra_signature_requested : bool; ra_raw_bit_stream_requested : bool }.

(** src/msgs/measurements.rs:25-36 *)
Definition ra_to_u8 (a : RequestAttributes) : N :=
  let out := if ra_signature_requested a then N.lor 0 0x1 else 0%N in
  if ra_raw_bit_stream_requested a then N.lor out 0x2 else out.

(** src/msgs/measurements.rs:39-56 *)
Inductive MeasurementIndex :=
| TotalNumberOfMeasurementsAvailable | AllMeasurements | ImplementationDefined (i : N)
| Reserved (i : N) | IdxMeasurementManifest | IdxDeviceMode.

(** src/msgs/measurements.rs:58-71 *)
Definition mi_of_u8 (v : N) : MeasurementIndex :=
  if (v =? 0)%N then TotalNumberOfMeasurementsAvailable
  else if (v =? 0xFF)%N then AllMeasurements
  else if (0x01 <=? v)%N && (v <=? 0xEF)%N then ImplementationDefined v
  else if (0xF0 <=? v)%N && (v <=? 0xFC)%N then Reserved v
  else if (v =? 0xFD)%N then IdxMeasurementManifest
  else IdxDeviceMode.

(** src/msgs/measurements.rs:74-77 *)
Inductive WriteMeasurementIndexError := InvalidImplementationDefinedIndex | InvalidReservedIndex.

(** src/msgs/measurements.rs:79-104 *)
Definition mi_to_u8 (i : MeasurementIndex) : res WriteMeasurementIndexError N :=
  match i with
  | TotalNumberOfMeasurementsAvailable => Ok 0%N
  | AllMeasurements => Ok 0xFF%N
  | ImplementationDefined v =>
    if (v <? 0x1)%N || (0xEF <? v)%N then Err InvalidImplementationDefinedIndex else Ok v
  | Reserved v => if (v <? 0xF0)%N || (0xFC <? v)%N then Err InvalidReservedIndex else Ok v
  | IdxMeasurementManifest => Ok 0xFD%N
  | IdxDeviceMode => Ok 0xFE%N
  end.

(** src/msgs/measurements.rs:107-123 *)
Inductive WriteGetMeasurementsError :=
| WGMBufferFull | WGMMeasurementIndex (e : WriteMeasurementIndexError) | WGMCryptoDisabled.
Definition wgm_from (e : BufferFullError) : WriteGetMeasurementsError := WGMBufferFull.

(** src/msgs/measurements.rs:126-130 *)
Inductive ParseGetMeasurementsError :=
| ReservedBitsNotZero | PGMMaxSlotNumberExceeded | PGMRead (e : ReadError).

(** src/msgs/measurements.rs:140-153 *)
Record GetMeasurements := mkGM {
  gm_attributes : RequestAttributes; gm_index : MeasurementIndex;
  gm_nonce : option (list N); gm_slot_id : N
}.

(** src/msgs/measurements.rs:156-167; [fresh] is the value Nonce::new() returns. *)
Definition get_measurements_new {E} (a : RequestAttributes) (i : MeasurementIndex) (slot : N)
           (fresh : list N) : res E GetMeasurements :=
  if negb (N.to_nat slot <? NUM_SLOTS) then Panic PAssert
  else Ok (mkGM a i (if ra_signature_requested a then Some fresh else None) slot).

(** src/msgs/measurements.rs:177-191 *)
Definition get_measurements_write_body (m : GetMeasurements) : M Writer WriteGetMeasurementsError nat :=
  map_err wgm_from (put (ra_to_u8 (gm_attributes m))) ;;;
  i <- map_err WGMMeasurementIndex (lift (mi_to_u8 (gm_index m))) ;;
  map_err wgm_from (put i) ;;;
  (if ra_signature_requested (gm_attributes m) then
     n <- lift (match gm_nonce m with Some n => Ok n | None => Panic PUnwrap end) ;;
     map_err wgm_from (w_extend n) ;;;
     map_err wgm_from (put (gm_slot_id m)) ;;;
     ret tt
   else ret tt) ;;;
  w_offset.

(** src/msgs/measurements.rs:195-224 *)
Definition get_measurements_parse : M Reader ParseGetMeasurementsError GetMeasurements :=
  b0 <- map_err PGMRead get_bit ;;
  b1 <- map_err PGMRead get_bit ;;
  let attributes := mkRA (b0 =? 1)%N (b1 =? 1)%N in
  rsvd <- map_err PGMRead (get_bits 6) ;;
  if negb (rsvd =? 0)%N then err ReservedBitsNotZero
  else
  i <- map_err PGMRead get_byte ;;
  let index := mi_of_u8 i in
  if ra_signature_requested attributes then
    nonce <- map_err PGMRead nonce_read ;;
    slot_id <- map_err PGMRead get_byte ;;
    if NUM_SLOTS <=? N.to_nat slot_id then err PGMMaxSlotNumberExceeded
    else ret (mkGM attributes index (Some nonce) slot_id)
  else ret (mkGM attributes index None 0).
Definition get_measurements_parse_body (buf : list N) := run_parser get_measurements_parse buf.

(** src/msgs/measurements.rs:229-236 *)
Inductive ContentChanged := CCNotSupported | CCTrue | CCFalse.
(** src/msgs/measurements.rs:241-251 *)
Definition cc_of_u8 (v : N) : option ContentChanged :=
  match v with 0 => Some CCNotSupported | 1 => Some CCTrue | 2 => Some CCFalse | _ => None end%N.

(** src/msgs/measurements.rs:256-259 *)
Inductive ValueRepresentation := ReprDigest | ReprRawBitStream.
Definition repr_to_u8 (r : ValueRepresentation) : N :=
  match r with ReprDigest => 0x00 | ReprRawBitStream => 0x80 end.
(** src/msgs/measurements.rs:264-273 *)
Definition repr_of_u8 (v : N) : option ValueRepresentation :=
  match v with 0x00 => Some ReprDigest | 0x80 => Some ReprRawBitStream | _ => None end%N.

(** src/msgs/measurements.rs:279-288 *)
Inductive ValueType :=
| VTImmutableRom | VTMutableFirmware | VTHardwareConfig | VTFirmwareConfig
| VTMeasurementManifest | VTDeviceMode | VTMutableFirmwareVersion
| VTMutableFirmwareSecurityVersion.
Definition vt_to_u8 (t : ValueType) : N :=
  match t with
  | VTImmutableRom => 0 | VTMutableFirmware => 1 | VTHardwareConfig => 2 | VTFirmwareConfig => 3
  | VTMeasurementManifest => 4 | VTDeviceMode => 5 | VTMutableFirmwareVersion => 6
  | VTMutableFirmwareSecurityVersion => 7
  end.
(** src/msgs/measurements.rs:293-309 *)
Definition vt_of_u8 (v : N) : option ValueType :=
  match v with
  | 0 => Some VTImmutableRom | 1 => Some VTMutableFirmware | 2 => Some VTHardwareConfig
  | 3 => Some VTFirmwareConfig | 4 => Some VTMeasurementManifest | 5 => Some VTDeviceMode
  | 6 => Some VTMutableFirmwareVersion | 7 => Some VTMutableFirmwareSecurityVersion
  | _ => None
  end%N.

(** src/msgs/measurements.rs:319-322 *)
Inductive ParseBitStreamError := PBSMaxSizeExceeded | PBSRead (e : ReadError).

(** src/msgs/measurements.rs:345-356; a BitStream is its visible contents
    ([as_slice], :337-339). *)
Definition bitstream_read (len : nat) : M Reader ParseBitStreamError (list N) :=
  if MAX_MEASUREMENT_SIZE <? len then err PBSMaxSizeExceeded
  else map_err PBSRead (get_slice len MAX_MEASUREMENT_SIZE).

(** src/msgs/measurements.rs:369-372 *)
Inductive MeasurementValue := MVDigest (d : list N) | MVBitStream (b : list N).
(** src/msgs/measurements.rs:375-380 *)
Definition mv_len (v : MeasurementValue) : nat :=
  match v with MVDigest d => length d | MVBitStream b => length b end.
(** src/msgs/measurements.rs:382-387 *)
Definition mv_write (v : MeasurementValue) : M Writer BufferFullError nat :=
  match v with MVDigest d => w_extend d | MVBitStream b => w_extend b end.

(** src/msgs/measurements.rs:390-402, 404-414: two sets of flags no code uses. *)
Definition OpMode_MANUFACTURING := 0x1%N.
Definition OpMode_VALIDATION := 0x2%N.
Definition OpMode_NORMAL := 0x4%N.
Definition OpMode_RECOVERY := 0x8%N.
Definition OpMode_RMA := 0x10%N.
Definition OpMode_DECOMMISSIONED := 0x20%N.
Definition DevMode_NON_INVASIVE_DEBUG := 0x1%N.
Definition DevMode_INVASIVE_DEBUG := 0x2%N.
Definition DevMode_NON_INVASIVE_DEBUG_RESET_CYCLE := 0x4%N.
Definition DevMode_INVASIVE_DEBUG_RESET_CYCLE := 0x8%N.
Definition DevMode_INVASIVE_DEBUG_AT_LEAST_ONCE := 0x20%N.
(** src/msgs/measurements.rs:416-423: what a DeviceMode measurement would hold. *)
Record DeviceMode := mkDeviceMode {
  dm_operational_mode_capabilities : N; dm_operational_mode_state : N; dm_device_mode_capabilities : N; dm_device_mode_state : N
}.

(** src/msgs/measurements.rs:427-431 *)
Record DmtfMeasurement := mkDM {
  dm_representation : ValueRepresentation; dm_type : ValueType; dm_value : MeasurementValue
}.

(** src/msgs/measurements.rs:434-440 *)
Inductive ParseDmtfMeasurementError :=
| PDMRepresentation | PDMType | PDMRead (e : ReadError) | PDMDigestTooLarge
| PDMBitStream (e : ParseBitStreamError).

(** [usize.try_into::<u16>().unwrap()] *)
Definition try_u16 {E} (n : nat) : res E N :=
  if (N.of_nat n <? 65536)%N then Ok (N.of_nat n) else Panic PUnwrap.
(** [usize.try_into::<u8>().unwrap()] *)
Definition try_u8 {E} (n : nat) : res E N :=
  if (N.of_nat n <? 256)%N then Ok (N.of_nat n) else Panic PUnwrap.

(** src/msgs/measurements.rs:475-477 *)
Definition dm_serialized_size (m : DmtfMeasurement) : nat := 3 + mv_len (dm_value m).

(** src/msgs/measurements.rs:479-489 *)
Definition dm_write (m : DmtfMeasurement) : M Writer BufferFullError nat :=
  put (N.lor (repr_to_u8 (dm_representation m)) (vt_to_u8 (dm_type m))) ;;;
  len <- lift (try_u16 (mv_len (dm_value m))) ;;
  put_u16 len ;;;
  mv_write (dm_value m).

(** src/msgs/measurements.rs:491-511 *)
Definition dm_read : M Reader ParseDmtfMeasurementError DmtfMeasurement :=
  v <- map_err PDMRead get_byte ;;
  value_type <- lift (of_option PDMType (vt_of_u8 (N.land v 0x7f))) ;;
  value_representation <- lift (of_option PDMRepresentation (repr_of_u8 (N.land v 0x80))) ;;
  value_size <- map_err PDMRead get_u16 ;;
  value <- match value_representation with
           | ReprDigest =>
             if N.to_nat value_size <=? MAX_DIGEST_SIZE
             then d <- map_err PDMRead (digest_read (N.to_nat value_size)) ;; ret (MVDigest d)
             else err PDMDigestTooLarge
           | ReprRawBitStream =>
             b <- map_err PDMBitStream (bitstream_read (N.to_nat value_size)) ;; ret (MVBitStream b)
           end ;;
  ret (mkDM value_representation value_type value).

(** src/msgs/measurements.rs:516-520 *)
Record MeasurementBlock := mkMB { mb_index : N; mb_spec : N; mb_measurement : DmtfMeasurement }.

(** src/msgs/measurements.rs:523-531 *)
Inductive ParseMeasurementBlockError :=
| PMBInvalidMeasurementSpec | PMBMeasurementSizeMismatch
| PMBMeasurement (e : ParseDmtfMeasurementError) | PMBRead (e : ReadError).

(** src/msgs/measurements.rs:546-548 *)
Definition mb_serialized_size (b : MeasurementBlock) : nat := 4 + dm_serialized_size (mb_measurement b).

(** src/msgs/measurements.rs:550-555 *)
Definition mb_write (b : MeasurementBlock) : M Writer BufferFullError nat :=
  put (mb_index b) ;;;
  put (mb_spec b) ;;;
  len <- lift (try_u16 (dm_serialized_size (mb_measurement b))) ;;
  put_u16 len ;;;
  dm_write (mb_measurement b).

(** src/msgs/measurements.rs:557-581 *)
Definition mb_read : M Reader ParseMeasurementBlockError MeasurementBlock :=
  index <- map_err PMBRead get_byte ;;
  spec <- map_err PMBRead get_byte ;;
  if negb (spec =? MeasurementSpec_DMTF)%N then err PMBInvalidMeasurementSpec
  else
  size <- map_err PMBRead get_u16 ;;
  offset <- gets r_byte ;;
  measurement <- map_err PMBMeasurement dm_read ;;
  now <- gets r_byte ;;
  if negb (N.to_nat size =? now - offset) then err PMBMeasurementSizeMismatch
  else ret (mkMB index MeasurementSpec_DMTF measurement).

(** src/msgs/measurements.rs:585-600 *)
Inductive WriteMeasurementsError := WMBufferFull | WMWriteOpaqueElement (e : WriteOpaqueElementError).
Definition wm_from (e : BufferFullError) : WriteMeasurementsError := WMBufferFull.

(** src/msgs/measurements.rs:603-608 *)
Inductive ParseMeasurementBlocksError :=
| PMBsMaxSizeExceeded | PMBsMeasurementSizeMismatch | PMBsBlock (e : ParseMeasurementBlockError)
| PMBsRead (e : ReadError).

(** src/msgs/measurements.rs:623-626: [blocks] is the whole array. *)
Record MeasurementBlocks := mkMBs { mbs_len : nat; mbs_blocks : list (option MeasurementBlock) }.

(** src/msgs/measurements.rs:628-636 *)
Definition mbs_default : MeasurementBlocks := mkMBs 0 (repeat None MAX_MEASUREMENT_BLOCKS).

(** src/msgs/measurements.rs:642-650: slicing may be out of bounds, [None]
    cells are unwrapped. *)
Definition mbs_serialized_size {E} (b : MeasurementBlocks) : res E nat :=
  if mbs_len b <=? length (mbs_blocks b) then
    fold_left (fun acc o => rbind acc (fun a =>
                 match o with Some x => Ok (a + mb_serialized_size x) | None => Panic PUnwrap end))
              (firstn (mbs_len b) (mbs_blocks b)) (Ok 0)
  else Panic PIndex.

(** src/msgs/measurements.rs:656-658 *)
Fixpoint mbs_write_loop (todo i : nat) (l : list (option MeasurementBlock)) : M Writer BufferFullError unit :=
  match todo with
  | O => ret tt
  | S t => match nth_error l i with
           | Some (Some b) => mb_write b ;;; mbs_write_loop t (S i) l
           | Some None => pnc PUnwrap
           | None => pnc PIndex
           end
  end.
(** src/msgs/measurements.rs:653-660 *)
Definition mbs_write (b : MeasurementBlocks) : M Writer BufferFullError nat :=
  n <- lift (try_u8 (mbs_len b)) ;;
  put n ;;;
  size <- lift (mbs_serialized_size b) ;;
  put_u24 (N.of_nat size) ;;;
  mbs_write_loop (mbs_len b) 0 (mbs_blocks b) ;;;
  w_offset.

(** src/msgs/measurements.rs:662-685.  The size limit is compared in N (usize). *)
Definition mbs_read : M Reader ParseMeasurementBlocksError MeasurementBlocks :=
  num_blocks <- map_err PMBsRead get_byte ;;
  size <- map_err PMBsRead get_u24 ;;
  if (N.of_nat MAX_MEASUREMENT_SIZE * N.of_nat MAX_MEASUREMENT_BLOCKS <? size)%N
  then err PMBsMaxSizeExceeded
  else
  offset <- gets r_byte ;;
  blocks <- fill (N.to_nat num_blocks) 0 (mbs_blocks mbs_default)
                 (b <- map_err PMBsBlock mb_read ;; ret (Some b)) ;;
  now <- gets r_byte ;;
  if negb (N.to_nat size =? now - offset) then err PMBsMeasurementSizeMismatch
  else ret (mkMBs (N.to_nat num_blocks) blocks).

(** src/msgs/measurements.rs:689-697 *)
Inductive ParseMeasurementsError :=
| PMMaxSlotNumberExceeded | PMMaxBlocksExceeded | PMMaxOpaqueDataSizeExceeded
| PMRead (e : ReadError) | PMBlocks (e : ParseMeasurementBlocksError)
| PMContentChanged | PMOpaque (e : ParseOpaqueDataError).

(** src/msgs/measurements.rs:724-742 *)
Record Measurements := mkMeasurements {
  m_total_blocks : N;
  m_content_changed : ContentChanged;
  m_slot_id : N;
  m_blocks : MeasurementBlocks;
  m_nonce : list N;
  m_opaque_data : OpaqueData;
  m_signature : option (list N)
}.

(** src/msgs/measurements.rs:750-768 *)
Definition measurements_new_with_num {E} (total_blocks : N) (cc : ContentChanged) (slot : N)
           (nonce : list N) (od : OpaqueData) (sig : option (list N)) : res E Measurements :=
  if negb (N.to_nat slot <? NUM_SLOTS) then Panic PAssert
  else Ok (mkMeasurements total_blocks cc slot mbs_default nonce od sig).

(** src/msgs/measurements.rs:772-790 *)
Definition measurements_new_with_measurements {E} (cc : ContentChanged) (slot : N)
           (blocks : MeasurementBlocks) (nonce : list N) (od : OpaqueData)
           (sig : option (list N)) : res E Measurements :=
  if negb (N.to_nat slot <? NUM_SLOTS) then Panic PAssert
  else Ok (mkMeasurements 0 cc slot blocks nonce od sig).

(** src/msgs/measurements.rs:792-807 *)
Definition m_param2 (m : Measurements) : N :=
  let param2 := match m_content_changed m with
                | CCTrue => N.lor 0 (N.shiftl 1 4)
                | CCFalse => N.lor 0 (N.shiftl 1 5)
                | CCNotSupported => 0%N
                end in
  match m_signature m with Some _ => N.lor param2 (m_slot_id m) | None => param2 end.

(** src/msgs/measurements.rs:864-882 *)
Definition measurements_write_body (m : Measurements) : M Writer WriteMeasurementsError nat :=
  map_err wm_from (put (m_total_blocks m)) ;;;
  map_err wm_from (put (m_param2 m)) ;;;
  map_err wm_from (mbs_write (m_blocks m)) ;;;
  map_err wm_from (w_extend (m_nonce m)) ;;;
  osize <- lift (try_u16 (od_serialized_size (m_opaque_data m))) ;;
  map_err wm_from (put_u16 osize) ;;;
  map_err WMWriteOpaqueElement (od_write (m_opaque_data m)) ;;;
  (match m_signature m with
   | Some s => map_err wm_from (w_extend s) ;;; ret tt
   | None => ret tt
   end) ;;;
  w_offset.

(** [let _ = r.get_bits(2);]: the result, error included, is discarded. *)
Definition ignore_result {E F A} (m : M Reader E A) : M Reader F unit := fun r =>
  match m r with
  | (Ok _, r') => (Ok tt, r')
  | (Err _, r') => (Ok tt, r')
  | (Panic p, r') => (Panic p, r')
  end.

(** src/msgs/measurements.rs:809-854 *)
Definition measurements_parse (signature_requested : bool) (signature_size : nat)
  : M Reader ParseMeasurementsError Measurements :=
  total_blocks <- map_err PMRead get_byte ;;
  if MAX_MEASUREMENT_BLOCKS <? N.to_nat total_blocks then err PMMaxBlocksExceeded
  else
  slot_id <- map_err PMRead (get_bits 4) ;;
  if NUM_SLOTS <? N.to_nat slot_id then err PMMaxSlotNumberExceeded
  else
  c <- map_err PMRead (get_bits 2) ;;
  content_changed <- lift (of_option PMContentChanged (cc_of_u8 c)) ;;
  ignore_result (get_bits 2) ;;;
  blocks <- map_err PMBlocks mbs_read ;;
  nonce <- map_err PMRead nonce_read ;;
  opaque_data_len <- map_err PMRead get_u16 ;;
  if 1024 <? N.to_nat opaque_data_len then err PMMaxOpaqueDataSizeExceeded
  else
  opaque_data <- map_err PMOpaque od_read ;;
  signature <- (if signature_requested
                then s <- map_err PMRead (signature_read signature_size) ;; ret (Some s)
                else ret None) ;;
  ret (mkMeasurements total_blocks content_changed slot_id blocks nonce opaque_data signature).
Definition measurements_parse_body (buf : list N) (signature_requested : bool) (signature_size : nat) :=
  run_parser (measurements_parse signature_requested signature_size) buf.

End Measurements.
