(** Model of src/msgs/algorithms.rs.  A bitflags set is the integer it wraps. *)
From Verif Require Import Base Config Encoding MsgCommon MsgCapabilities.

(** src/msgs/algorithms.rs:17-25 *)
Definition RSASSA_2048 : N := 0x1.
Definition RSAPSS_2048 : N := 0x2.
Definition RSASSA_3072 : N := 0x4.
Definition RSAPSS_3072 : N := 0x8.
Definition ECDSA_ECC_NIST_P256 : N := 0x10.
Definition RSASSA_4096 : N := 0x20.
Definition RSAPSS_4096 : N := 0x40.
Definition ECDSA_ECC_NIST_P384 : N := 0x80.
Definition ECDSA_ECC_NIST_P521 : N := 0x100.
Definition BaseAsymAlgo_all : N :=
  fold_left N.lor [RSASSA_2048; RSAPSS_2048; RSASSA_3072; RSAPSS_3072; ECDSA_ECC_NIST_P256;
                   RSASSA_4096; RSAPSS_4096; ECDSA_ECC_NIST_P384; ECDSA_ECC_NIST_P521] 0%N.
(** src/msgs/algorithms.rs:74-79 *)
Definition SHA_256 : N := 0x1.
Definition SHA_384 : N := 0x2.
Definition SHA_512 : N := 0x4.
Definition SHA3_256 : N := 0x8.
Definition SHA3_384 : N := 0x10.
Definition SHA3_512 : N := 0x20.
Definition BaseHashAlgo_all : N :=
  fold_left N.lor [SHA_256; SHA_384; SHA_512; SHA3_256; SHA3_384; SHA3_512] 0%N.
(** src/msgs/algorithms.rs:124 *)
Definition MeasurementSpec_DMTF : N := 0x1.
Definition MeasurementSpec_all : N := MeasurementSpec_DMTF.
(** src/msgs/algorithms.rs:138-143 *)
Definition FFDHE_2048 : N := 0x1.
Definition FFDHE_3072 : N := 0x2.
Definition FFDHE_4096 : N := 0x4.
Definition SECP_256_R1 : N := 0x8.
Definition SECP_384_R1 : N := 0x10.
Definition SECP_521_R1 : N := 0x20.
Definition Dhe_all : N :=
  fold_left N.lor [FFDHE_2048; FFDHE_3072; FFDHE_4096; SECP_256_R1; SECP_384_R1; SECP_521_R1] 0%N.
(** src/msgs/algorithms.rs:164-166 *)
Definition AES_128_GCM : N := 0x1.
Definition AES_256_GCM : N := 0x2.
Definition CHACHA20_POLY1305 : N := 0x4.
Definition Aead_all : N := fold_left N.lor [AES_128_GCM; AES_256_GCM; CHACHA20_POLY1305] 0%N.
(** src/msgs/algorithms.rs:187-195: same constants as BaseAsymAlgo, as u16 *)
Definition ReqBaseAsym_all : N :=
  fold_left N.lor [RSASSA_2048; RSAPSS_2048; RSASSA_3072; RSAPSS_3072; ECDSA_ECC_NIST_P256;
                   RSASSA_4096; RSAPSS_4096; ECDSA_ECC_NIST_P384; ECDSA_ECC_NIST_P521] 0%N.
(** src/msgs/algorithms.rs:215 *)
Definition KeySchedule_SPDM : N := 0x1.
Definition KeySchedule_all : N := KeySchedule_SPDM.

(** src/msgs/algorithms.rs:156, 179, 208, 226 *)
Definition Dhe_TYPE : N := 0x2.
Definition Aead_TYPE : N := 0x3.
Definition ReqBaseAsym_TYPE : N := 0x4.
Definition KeySchedule_TYPE : N := 0x5.
(** src/msgs/algorithms.rs:157, 180, 209, 227: 2 for all four *)
Definition FIXED_ALG_COUNT : N := 2.

Local Open Scope string_scope.
(** src/msgs/algorithms.rs:49-68 *)
Definition BaseAsymAlgo_table : list (string * N) :=
  [("RSASSA_2048", RSASSA_2048); ("RSAPSS_2048", RSAPSS_2048);
   ("RSASSA_3072", RSASSA_3072); ("RSAPSS_3072", RSAPSS_3072);
   ("ECDSA_ECC_NIST_P256", ECDSA_ECC_NIST_P256);
   ("RSASSA_4096", RSASSA_4096); ("RSAPSS_4096", RSAPSS_4096);
   ("ECDSA_ECC_NIST_P384", ECDSA_ECC_NIST_P384);
   ("ECDSA_ECC_NIST_P521", ECDSA_ECC_NIST_P521)].
Definition BaseAsymAlgo_from_str (s : string) : option N := str_lookup s BaseAsymAlgo_table.
(** src/msgs/algorithms.rs:100-116 *)
Definition BaseHashAlgo_table : list (string * N) :=
  [("SHA_256", SHA_256); ("SHA_384", SHA_384); ("SHA_512", SHA_512);
   ("SHA3_256", SHA3_256); ("SHA3_384", SHA3_384); ("SHA3_512", SHA3_512)].
Definition BaseHashAlgo_from_str (s : string) : option N := str_lookup s BaseHashAlgo_table.
Local Close Scope string_scope.

Section Algorithms.
Context {cfg : Config}.

(** src/msgs/algorithms.rs:31-43 *)
Definition get_signature_size {E} (a : N) : res E nat :=
  if (a =? RSASSA_2048)%N || (a =? RSAPSS_2048)%N then signature_size 256
  else if (a =? RSASSA_3072)%N || (a =? RSAPSS_3072)%N then signature_size 384
  else if (a =? ECDSA_ECC_NIST_P256)%N then signature_size 64
  else if (a =? RSASSA_4096)%N || (a =? RSAPSS_4096)%N then signature_size 512
  else if (a =? ECDSA_ECC_NIST_P384)%N then signature_size 96
  else if (a =? ECDSA_ECC_NIST_P521)%N then signature_size 132
  else Panic PUnreachable.

(** src/msgs/algorithms.rs:85-94 *)
Definition get_digest_size {E} (h : N) : res E nat :=
  if (h =? SHA_256)%N || (h =? SHA3_256)%N then digest_size 32
  else if (h =? SHA_384)%N || (h =? SHA3_384)%N then digest_size 48
  else if (h =? SHA_512)%N || (h =? SHA3_512)%N then digest_size 64
  else Panic PUnreachable.

(** src/msgs/algorithms.rs:150-153, 173-176, 202-205, 220-223, 232-237: each
    variant carries only its fixed algorithm set. *)
Inductive AlgorithmRequest :=
| Dhe (supported : N) | Aead (supported : N) | ReqBaseAsym (supported : N) | KeySchedule (supported : N).

(** src/msgs/algorithms.rs:240-244 *)
Definition ar_default : AlgorithmRequest := Dhe 0.

(** src/msgs/algorithms.rs:247-252 *)
Inductive ParseAlgorithmRequestError :=
| IncorrectFixedAlgCount | InvalidFixedAlgorithm | InvalidAlgorithmType | PARRead (e : ReadError).

(** src/msgs/algorithms.rs:263-274 *)
Definition fixed_algo_count (a : AlgorithmRequest) : N :=
  match a with
  | Dhe _ => FIXED_ALG_COUNT | Aead _ => FIXED_ALG_COUNT
  | ReqBaseAsym _ => FIXED_ALG_COUNT | KeySchedule _ => FIXED_ALG_COUNT
  end.

(** One arm of src/msgs/algorithms.rs:277-301 (the four arms differ only in TYPE). *)
Definition alg_struct_write (ty supported : N) : M Writer BufferFullError nat :=
  put ty ;;; put (N.shiftl FIXED_ALG_COUNT 4 mod 256) ;;; put_u16 supported ;;; w_offset.
(** src/msgs/algorithms.rs:277-301 *)
Definition ar_write (a : AlgorithmRequest) : M Writer BufferFullError nat :=
  match a with
  | Dhe s => alg_struct_write Dhe_TYPE s
  | Aead s => alg_struct_write Aead_TYPE s
  | ReqBaseAsym s => alg_struct_write ReqBaseAsym_TYPE s
  | KeySchedule s => alg_struct_write KeySchedule_TYPE s
  end.

(** One arm of src/msgs/algorithms.rs:304-384 (308-323, 325-340, 342-360,
    362-380: identical but for the type and the defined bits). *)
Definition alg_struct_read (all : N) (mk : N -> AlgorithmRequest)
  : M Reader ParseAlgorithmRequestError AlgorithmRequest :=
  ext_count <- map_err PARRead (get_bits 4) ;;
  fixed_count <- map_err PARRead (get_bits 4) ;;
  if negb (fixed_count =? FIXED_ALG_COUNT)%N then err IncorrectFixedAlgCount
  else
    supported <- map_err PARRead get_u16 ;;
    supported <- lift (of_option InvalidFixedAlgorithm (from_bits all supported)) ;;
    map_err PARRead (skip_ignored (4 * N.to_nat ext_count)) ;;;
    ret (mk supported).
(** src/msgs/algorithms.rs:304-384 *)
Definition ar_read : M Reader ParseAlgorithmRequestError AlgorithmRequest :=
  ty <- map_err PARRead get_byte ;;
  if (ty =? Dhe_TYPE)%N then alg_struct_read Dhe_all Dhe
  else if (ty =? Aead_TYPE)%N then alg_struct_read Aead_all Aead
  else if (ty =? ReqBaseAsym_TYPE)%N then alg_struct_read ReqBaseAsym_all ReqBaseAsym
  else if (ty =? KeySchedule_TYPE)%N then alg_struct_read KeySchedule_all KeySchedule
  else err InvalidAlgorithmType.

(** src/msgs/algorithms.rs:388-396 *)
Inductive ParseNegotiateAlgorithmsError :=
| PNATooLarge | MaxAlgorithmRequestsExceeded | InvalidMeasurementSpec | InvalidBaseAsymAlgo
| InvalidBaseHashAlgo | PNARead (e : ReadError) | PNAAlgorithmRequest (e : ParseAlgorithmRequestError).

(** src/msgs/algorithms.rs:411 *)
Definition MAX_ALGORITHM_REQUESTS : nat := 4.

(** src/msgs/algorithms.rs:419-425; [na_requests] is the whole 4-cell array. *)
Record NegotiateAlgorithms := mkNA {
  na_measurement_spec : N;
  na_base_asym_algo : N;
  na_base_hash_algo : N;
  na_num_requests : N;
  na_requests : list AlgorithmRequest
}.

(** src/msgs/algorithms.rs:529-535, 707-713: the u16 fold cannot overflow (at
    most 4 * 4 + 36); slicing past the array panics. *)
Definition alg_msg_length {E} (base : N) (num : N) (l : list AlgorithmRequest) : res E N :=
  if N.to_nat num <=? length l then
    Ok (fold_left (fun acc a => acc + 2 + fixed_algo_count a)%N (firstn (N.to_nat num) l) base)
  else Panic PIndex.

(** src/msgs/algorithms.rs:537-545, 715-723: [for i in 0..num { arr[i].write(w)?; }] *)
Fixpoint write_alg_structs (todo i : nat) (l : list AlgorithmRequest) : M Writer BufferFullError unit :=
  match todo with
  | O => ret tt
  | S t => match nth_error l i with
           | Some a => ar_write a ;;; write_alg_structs t (S i) l
           | None => pnc PIndex
           end
  end.

(** src/msgs/algorithms.rs:436-449 *)
Definition negotiate_algorithms_write_body (m : NegotiateAlgorithms) : M Writer BufferFullError nat :=
  put (na_num_requests m) ;;;
  put_reserved 1 ;;;
  len <- lift (alg_msg_length 32 (na_num_requests m) (na_requests m)) ;;
  put_u16 len ;;;
  put (na_measurement_spec m) ;;;
  put_reserved 1 ;;;
  put_u32 (na_base_asym_algo m) ;;;
  put_u32 (na_base_hash_algo m) ;;;
  put_reserved 12 ;;;
  put 0 ;;;
  put 0 ;;;
  put_reserved 2 ;;;
  write_alg_structs (N.to_nat (na_num_requests m)) 0 (na_requests m) ;;;
  w_offset.

(** src/msgs/algorithms.rs:453-527 *)
Definition negotiate_algorithms_parse : M Reader ParseNegotiateAlgorithmsError NegotiateAlgorithms :=
  num_requests <- map_err PNARead get_byte ;;
  if MAX_ALGORITHM_REQUESTS <? N.to_nat num_requests then err MaxAlgorithmRequestsExceeded
  else
  map_err PNARead (skip_reserved 1) ;;;
  len <- map_err PNARead get_u16 ;;
  if (128 <? len)%N then err PNATooLarge
  else
  spec <- map_err PNARead get_byte ;;
  measurement_spec <- lift (of_option InvalidMeasurementSpec (from_bits MeasurementSpec_all spec)) ;;
  map_err PNARead (skip_reserved 1) ;;;
  algo <- map_err PNARead get_u32 ;;
  base_asym_algo <- lift (of_option InvalidBaseAsymAlgo (from_bits BaseAsymAlgo_all algo)) ;;
  algo <- map_err PNARead get_u32 ;;
  base_hash_algo <- lift (of_option InvalidBaseHashAlgo (from_bits BaseHashAlgo_all algo)) ;;
  map_err PNARead (skip_reserved 12) ;;;
  ext_asym_count <- map_err PNARead get_byte ;;
  ext_hash_count <- map_err PNARead get_byte ;;
  map_err PNARead (skip_reserved 2) ;;;
  map_err PNARead (skip_ignored (N.to_nat ext_asym_count * 4)) ;;;
  map_err PNARead (skip_ignored (N.to_nat ext_hash_count * 4)) ;;;
  requests <- fill (N.to_nat num_requests) 0 (repeat ar_default MAX_ALGORITHM_REQUESTS)
                   (map_err PNAAlgorithmRequest ar_read) ;;
  ret (mkNA measurement_spec base_asym_algo base_hash_algo num_requests requests).
Definition negotiate_algorithms_parse_body (buf : list N) := run_parser negotiate_algorithms_parse buf.

(** src/msgs/algorithms.rs:586-591 *)
Inductive ParseAlgorithmResponseError :=
| MoreThanOneDheAlgoSelected | MoreThanOneAeadAlgoSelected
| RspMoreThanOneBaseAsymAlgoSelected | MoreThanOneKeySchedule.

(** src/msgs/algorithms.rs:549-562 *)
Inductive ParseAlgorithmsError :=
| MaxAlgorithmResponsesExceeded
| InvalidMeasurementSpecSelected | MoreThanOneMeasurementSpecSelected
| InvalidMeasurementHashAlgoSelected | MoreThanOneMeasurementHashAlgoSelected
| InvalidBaseAsymAlgoSelected | MoreThanOneBaseAsymAlgoSelected
| InvalidBaseHashAlgoSelected | MoreThanOneBaseHashAlgoSelected
| PAAlgorithmsResponse (e : ParseAlgorithmResponseError)
| PAAlgorithmsRequest (e : ParseAlgorithmRequestError)
| PARead (e : ReadError).

(** src/msgs/algorithms.rs:595-602 *)
Record Algorithms := mkAlgorithms {
  al_measurement_spec : N;
  al_measurement_hash : N;
  al_base_asym : N;
  al_base_hash : N;
  al_num_responses : N;
  al_responses : list AlgorithmRequest
}.

(** derived Default, src/msgs/algorithms.rs:594 *)
Definition algorithms_default : Algorithms :=
  mkAlgorithms 0 0 0 0 0 (repeat ar_default MAX_ALGORITHM_REQUESTS).

(** src/msgs/algorithms.rs:613-631 *)
Definition algorithms_write_body (m : Algorithms) : M Writer BufferFullError nat :=
  put (al_num_responses m) ;;;
  put_reserved 1 ;;;
  len <- lift (alg_msg_length 36 (al_num_responses m) (al_responses m)) ;;
  put_u16 len ;;;
  put (al_measurement_spec m) ;;;
  put_reserved 1 ;;;
  put_u32 (al_measurement_hash m) ;;;
  put_u32 (al_base_asym m) ;;;
  put_u32 (al_base_hash m) ;;;
  put_reserved 12 ;;;
  put 0 ;;;
  put 0 ;;;
  put_reserved 2 ;;;
  write_alg_structs (N.to_nat (al_num_responses m)) 0 (al_responses m) ;;;
  w_offset.

(** src/msgs/algorithms.rs:737-769 *)
Definition ensure_only_one_bit_set (a : AlgorithmRequest) : res ParseAlgorithmsError unit :=
  match a with
  | Dhe s => if count_ones s =? 1 then Ok tt else Err (PAAlgorithmsResponse MoreThanOneDheAlgoSelected)
  | Aead s => if count_ones s =? 1 then Ok tt else Err (PAAlgorithmsResponse MoreThanOneAeadAlgoSelected)
  | ReqBaseAsym s =>
    if count_ones s =? 1 then Ok tt else Err (PAAlgorithmsResponse RspMoreThanOneBaseAsymAlgoSelected)
  | KeySchedule s => if count_ones s =? 1 then Ok tt else Err (PAAlgorithmsResponse MoreThanOneKeySchedule)
  end.

(** src/msgs/algorithms.rs:725-735.  The array cell is assigned before the check;
    the array is discarded when the check fails, so checking first is the same. *)
Definition alg_response_read : M Reader ParseAlgorithmsError AlgorithmRequest :=
  a <- map_err PAAlgorithmsRequest ar_read ;;
  lift (ensure_only_one_bit_set a) ;;;
  ret a.

(** A selected-bits field: [from_bits(..).ok_or(inv)?] then [count_ones() != 1]
    (src/msgs/algorithms.rs:647-656, 660-669, 671-676, 678-683). *)
Definition one_selection (all : N) (inv more : ParseAlgorithmsError) (bits : N)
  : M Reader ParseAlgorithmsError N :=
  v <- lift (of_option inv (from_bits all bits)) ;;
  if negb (count_ones v =? 1) then err more else ret v.

(** src/msgs/algorithms.rs:635-705 *)
Definition algorithms_parse : M Reader ParseAlgorithmsError Algorithms :=
  num_responses <- map_err PARead get_byte ;;
  if MAX_ALGORITHM_REQUESTS <? N.to_nat num_responses then err MaxAlgorithmResponsesExceeded
  else
  map_err PARead (skip_reserved 1) ;;;
  _length <- map_err PARead get_u16 ;;
  selection <- map_err PARead get_byte ;;
  measurement_spec <- one_selection MeasurementSpec_all InvalidMeasurementSpecSelected
                                    MoreThanOneMeasurementSpecSelected selection ;;
  map_err PARead (skip_reserved 1) ;;;
  selection <- map_err PARead get_u32 ;;
  measurement_hash <- one_selection BaseHashAlgo_all InvalidMeasurementHashAlgoSelected
                                    MoreThanOneMeasurementHashAlgoSelected selection ;;
  selection <- map_err PARead get_u32 ;;
  base_asym <- one_selection BaseAsymAlgo_all InvalidBaseAsymAlgoSelected
                             MoreThanOneBaseAsymAlgoSelected selection ;;
  selection <- map_err PARead get_u32 ;;
  base_hash <- one_selection BaseHashAlgo_all InvalidBaseHashAlgoSelected
                             MoreThanOneBaseHashAlgoSelected selection ;;
  map_err PARead (skip_reserved 12) ;;;
  map_err PARead (skip_reserved 1) ;;;
  map_err PARead (skip_reserved 1) ;;;
  map_err PARead (skip_reserved 2) ;;;
  responses <- fill (N.to_nat num_responses) 0 (repeat ar_default MAX_ALGORITHM_REQUESTS)
                    alg_response_read ;;
  ret (mkAlgorithms measurement_spec measurement_hash base_asym base_hash num_responses responses).
Definition algorithms_parse_body (buf : list N) := run_parser algorithms_parse buf.

End Algorithms.
