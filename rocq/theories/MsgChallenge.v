(** Model of src/msgs/challenge.rs and the reading half of src/crypto/nonce.rs. *)
From Verif Require Import Base Config Encoding MsgCommon.

(** src/msgs/challenge.rs:79-80, 158-159 *)
Definition Challenge_id := mkMsgId 0x11 0x83.
Definition ChallengeAuth_id := mkMsgId 0x11 0x03.

Section Challenge.
Context {cfg : Config}.

(** src/crypto/nonce.rs:26-30, 43-45 *)
Definition nonce_read : M Reader ReadError (list N) :=
  if feature_rand then get_slice 32 32 else ret [].

(** src/msgs/challenge.rs:18 *)
Definition MAX_OPAQUE_DATA_SIZE : nat := 1024.

(** src/msgs/challenge.rs:21-27 *)
Inductive MeasurementHashType := MHNone | MHTcb | MHAll.
Definition mht_to_u8 (t : MeasurementHashType) : N :=
  match t with MHNone => 0 | MHTcb => 1 | MHAll => 0xFF end.
(** src/msgs/challenge.rs:32-43 *)
Definition mht_of_u8 (v : N) : option MeasurementHashType :=
  match v with 0 => Some MHNone | 1 => Some MHTcb | 0xFF => Some MHAll | _ => None end%N.

(** src/msgs/challenge.rs:46-49 *)
Inductive ParseChallengeError := InvalidMeasurementHashType | PChRead (e : ReadError).

(** src/msgs/challenge.rs:65-69 *)
Record Challenge := mkChallenge {
  ch_slot : N; ch_measurement_hash_type : MeasurementHashType; ch_nonce : list N
}.

(** src/msgs/challenge.rs:84-88 *)
Definition challenge_write_body (m : Challenge) : M Writer BufferFullError nat :=
  put (ch_slot m) ;;;
  put (mht_to_u8 (ch_measurement_hash_type m)) ;;;
  w_extend (ch_nonce m).

(** src/msgs/challenge.rs:92-98 *)
Definition challenge_parse : M Reader ParseChallengeError Challenge :=
  slot <- map_err PChRead get_byte ;;
  b <- map_err PChRead get_byte ;;
  measurement_hash_type <- lift (of_option InvalidMeasurementHashType (mht_of_u8 b)) ;;
  nonce <- map_err PChRead nonce_read ;;
  ret (mkChallenge slot measurement_hash_type nonce).
Definition challenge_parse_body (buf : list N) := run_parser challenge_parse buf.

(** src/msgs/challenge.rs:102-119 *)
Inductive WriteChallengeAuthError :=
| WCAMaxSlotNumberExceeded | WCAMaxOpaqueDataSizeExceeded | WCABufferFull
| WCAWriteOpaqueElement (e : WriteOpaqueElementError).
Definition wca_from (e : BufferFullError) : WriteChallengeAuthError := WCABufferFull.

(** src/msgs/challenge.rs:122-127 *)
Inductive ParseChallengeAuthError :=
| PCAMaxSlotNumberExceeded | PCAMaxOpaqueDataSizeExceeded
| PCAParseOpaqueData (e : ParseOpaqueDataError) | PCARead (e : ReadError).

(** src/msgs/challenge.rs:143-154 *)
Record ChallengeAuth := mkChallengeAuth {
  ca_slot : N;
  ca_slot_mask : N;
  ca_use_mutual_auth : bool;
  ca_cert_chain_hash : list N;
  ca_nonce : list N;
  ca_measurement_summary_hash : list N;
  ca_opaque_data : OpaqueData;
  ca_signature : list N
}.

(** src/msgs/challenge.rs:185-194 *)
Definition challenge_auth_validate (m : ChallengeAuth) : res WriteChallengeAuthError unit :=
  if NUM_SLOTS <=? N.to_nat (ca_slot m) then Err WCAMaxSlotNumberExceeded
  else if MAX_OPAQUE_DATA_SIZE <? od_serialized_size (ca_opaque_data m)
  then Err WCAMaxOpaqueDataSizeExceeded
  else Ok tt.

(** src/msgs/challenge.rs:163-181 *)
Definition challenge_auth_write_body (m : ChallengeAuth) : M Writer WriteChallengeAuthError nat :=
  lift (challenge_auth_validate m) ;;;
  (if ca_use_mutual_auth m
   then map_err wca_from (put (N.land (ca_slot m) (N.shiftl 1 7)))
   else map_err wca_from (put (ca_slot m))) ;;;
  map_err wca_from (put (ca_slot_mask m)) ;;;
  map_err wca_from (w_extend (ca_cert_chain_hash m)) ;;;
  map_err wca_from (w_extend (ca_nonce m)) ;;;
  map_err wca_from (w_extend (ca_measurement_summary_hash m)) ;;;
  map_err wca_from (put_u16 (N.of_nat (od_serialized_size (ca_opaque_data m)) mod 65536)) ;;;
  map_err WCAWriteOpaqueElement (od_write (ca_opaque_data m)) ;;;
  map_err wca_from (w_extend (ca_signature m)) ;;;
  w_offset.

(** src/msgs/challenge.rs:196-221: the conversions to DigestBuf / SignatureBuf
    are unwrapped. *)
Definition challenge_auth_new {E} (slot slot_mask : N) (use_mutual_auth : bool)
           (cert_chain_digest nonce measurement_summary_digest : list N)
           (opaque_data : OpaqueData) (sig : list N) : res E ChallengeAuth :=
  rbind (digest_size (length cert_chain_digest)) (fun _ =>
  rbind (digest_size (length measurement_summary_digest)) (fun _ =>
  rbind (signature_size (length sig)) (fun _ =>
  Ok (mkChallengeAuth slot slot_mask use_mutual_auth cert_chain_digest nonce
                      measurement_summary_digest opaque_data sig)))).

(** src/msgs/challenge.rs:226-261 *)
Definition challenge_auth_parse (digest_size signature_size : nat)
  : M Reader ParseChallengeAuthError ChallengeAuth :=
  slot <- map_err PCARead (get_bits 4) ;;
  if NUM_SLOTS <? N.to_nat slot then err PCAMaxOpaqueDataSizeExceeded
  else
  _ <- map_err PCARead (get_bits 3) ;;
  b <- map_err PCARead get_bit ;;
  let use_mutual_auth := (b =? 1)%N in
  slot_mask <- map_err PCARead get_byte ;;
  cert_chain_hash <- map_err PCARead (digest_read digest_size) ;;
  nonce <- map_err PCARead nonce_read ;;
  measurement_summary_hash <- map_err PCARead (digest_read digest_size) ;;
  opaque_data_len <- map_err PCARead get_u16 ;;
  if MAX_OPAQUE_DATA_SIZE <? N.to_nat opaque_data_len then err PCAMaxOpaqueDataSizeExceeded
  else
  opaque_data <- map_err PCAParseOpaqueData od_read ;;
  signature <- map_err PCARead (signature_read signature_size) ;;
  ret (mkChallengeAuth slot slot_mask use_mutual_auth cert_chain_hash nonce
                       measurement_summary_hash opaque_data signature).
Definition challenge_auth_parse_body (buf : list N) (digest_size signature_size : nat) :=
  run_parser (challenge_auth_parse digest_size signature_size) buf.

End Challenge.
