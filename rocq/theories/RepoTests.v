(** The repository's own unit tests, replayed on the model.

    Evidence that the model is the program: each [Example] below is one [#[test]]
    of /repo (its file and name are given), with the same inputs, the same
    sequence of calls and the same assertions, evaluated by the kernel on the
    definitions the theorems are about.  No general theorem depends on this file.

    Not replayed: tests of code outside the model (src/crypto/ring/*: the ring
    crate itself; tests/certs.rs: rcgen and webpki).  Where a test makes
    certificates with rcgen, [der] stands for any DER value of a comparable
    size; where it draws a random nonce, [a_nonce] is used. *)
From Verif Require Import Base Config Encoding MsgCommon MsgVersion MsgCapabilities MsgAlgorithms MsgDigest
     MsgCertificates MsgChallenge MsgError MsgMeasurements Transcript Crypto Responder Requester Sample SampleRun.
#[local] Existing Instance sample_cfg.
#[local] Existing Instance sample_crypto.

(** [unwrap()] of the test: the value, or a value no assertion below accepts. *)
Definition is_err {E A} (r : res E A) : bool := match r with Err _ => true | _ => false end.
Definition is_ok {E A} (r : res E A) : bool := match r with Ok _ => true | _ => false end.
Definition zero_buf (n : nat) : list N := repeat 0%N n.
Definition body (buf : list N) : list N := skipn 2 buf.
Definition a_nonce : list N := map N.of_nat (seq 100 32).

(** ** src/msgs/encoding.rs *)

(** [get_bits] n times with the alignment and emptiness seen after each. *)
Fixpoint observe_bits (counts : list nat) (r : Reader) : list (res ReadError N * bool * bool) * Reader :=
  match counts with
  | [] => ([], r)
  | c :: rest => let '(v, r1) := get_bits c r in
                 let '(l, r2) := observe_bits rest r1 in ((v, r_is_aligned r1, r_is_empty r1) :: l, r2)
  end.
(** encoding.rs:319-337 *)
Example read_by_4_bits :
  fst (observe_bits [4; 4; 4; 4] (reader_new [0xF0; 0xF0]%N)) =
  [(Ok 0x00, false, false); (Ok 0x0F, true, false); (Ok 0x00, false, false); (Ok 0x0F, true, true)]%N.
Proof. vm_compute. reflexivity. Qed.
(** encoding.rs:340-373 *)
Example read_by_3_bits :
  let '(l, r) := observe_bits [3; 3; 3; 3; 3] (reader_new [0xF0; 0xF0]%N) in
  l = [(Ok 0x00, false, false); (Ok 0x06, false, false); (Ok 0x03, false, false); (Ok 0x00, false, false);
       (Ok 0x07, false, false)]%N /\
  is_err (fst (get_bits 3 r)) = true /\ r_byte (snd (get_bits 3 r)) = 1 /\ r_bit (snd (get_bits 3 r)) = 7.
Proof. vm_compute. repeat split. Qed.
(** encoding.rs:376-382 *)
Example read_by_gt_8_bits_fails :
  forallb is_err (map (fun '(v, _, _) => v) (fst (observe_bits [8; 9; 10] (reader_new [0xF0; 0xF0]%N)))) = true.
Proof. vm_compute. reflexivity. Qed.
(** encoding.rs:385-403 *)
Example get_bit_by_bit :
  let '(l, r) := observe_bits (repeat 1 16) (reader_new [0xF0; 0xF0]%N) in
  map (fun '(v, _, _) => v) l = repeat (Ok 0%N) 4 ++ repeat (Ok 1%N) 4 ++ repeat (Ok 0%N) 4 ++ repeat (Ok 1%N) 4 /\
  nth 7 (map (fun '(_, a, _) => a) l) false = true /\ r_is_empty r = true /\ is_err (fst (get_bit r)) = true.
Proof. vm_compute. repeat split. Qed.
(** encoding.rs:406-416 *)
Example u24_roundtrip :
  let '(n, w) := put_u24 0x1de (writer_new (zero_buf 4)) in
  n = Ok 3 /\ fst (get_u24 (reader_new (w_buf w))) = Ok 0x1de%N.
Proof. vm_compute. repeat split. Qed.

(** ** src/msgs/version.rs, src/msgs/capabilities.rs *)

Definition write_version (v : Version) buf := write_msg Version_id (fun e => e) (version_write_body v) buf.
(** version.rs:156-163 *)
Example default_version_parses_correctly :
  let '(n, buf) := write_version version_default (zero_buf 16) in
  n = Ok 10 /\ parse_header Version_id buf = Ok true /\ version_parse_body (body buf) = Ok version_default.
Proof. vm_compute. repeat split. Qed.

Definition test_caps : GetCapabilities :=
  mkGetCapabilities 12 (fold_left N.lor [ReqFlags_CERT_CAP; ReqFlags_CHAL_CAP; ReqFlags_ENCRYPT_CAP; ReqFlags_MAC_CAP;
                                        ReqFlags_KEY_EX_CAP; ReqFlags_MUT_AUTH_CAP] 0%N).
Definition write_get_caps buf := write_msg GetCapabilities_id (fun e => e) (get_capabilities_write_body test_caps) buf.
(** capabilities.rs:227-244 *)
Example get_capabilities_parses_correctly :
  let '(n, buf) := write_get_caps (zero_buf 16) in
  n = Ok 12 /\ parse_header GetCapabilities_id buf = Ok true /\ get_capabilities_parse_body (body buf) = Ok test_caps.
Proof. vm_compute. repeat split. Qed.
(** capabilities.rs:247-266 *)
Example get_capabilities_fails_to_parse_with_invalid_flags :
  let '(n, buf) := write_get_caps (zero_buf 16) in
  n = Ok 12 /\ is_err (get_capabilities_parse_body (body (upd buf 8 1%N))) = true.
Proof. vm_compute. repeat split. Qed.

(** ** src/msgs/algorithms.rs and src/requester/algorithms.rs *)

Definition algo_requests : list AlgorithmRequest :=
  [Dhe (N.lor FFDHE_3072 SECP_384_R1); Aead (N.lor AES_256_GCM CHACHA20_POLY1305);
   ReqBaseAsym (N.lor ECDSA_ECC_NIST_P384 ECDSA_ECC_NIST_P256); KeySchedule KeySchedule_SPDM].
Definition algo_responses : list AlgorithmRequest :=
  [Dhe FFDHE_3072; Aead AES_256_GCM; ReqBaseAsym ECDSA_ECC_NIST_P384; KeySchedule KeySchedule_SPDM].
Definition negotiate_algo : NegotiateAlgorithms :=
  mkNA MeasurementSpec_DMTF (N.lor ECDSA_ECC_NIST_P256 ECDSA_ECC_NIST_P521) (N.lor SHA_384 SHA3_384) 4 algo_requests.
Definition algo (responses : list AlgorithmRequest) : Algorithms :=
  mkAlgorithms MeasurementSpec_DMTF SHA_384 ECDSA_ECC_NIST_P256 SHA_384 4 responses.
Definition write_negotiate buf :=
  write_msg NegotiateAlgorithms_id (fun e => e) (negotiate_algorithms_write_body negotiate_algo) buf.
Definition write_algorithms a buf := write_msg Algorithms_id (fun e => e) (algorithms_write_body a) buf.
(** algorithms.rs:842-853 *)
Example negotiate_algorithms_parses_correctly :
  let '(n, buf) := write_negotiate (zero_buf 128) in
  n = Ok 48 /\ parse_header NegotiateAlgorithms_id buf = Ok true /\
  negotiate_algorithms_parse_body (body buf) = Ok negotiate_algo.
Proof. vm_compute. repeat split. Qed.
(** algorithms.rs:862-896 *)
Example negotiate_algorithms_with_external_algorithms_skipped_parses_correctly :
  let '(n, buf) := write_negotiate (zero_buf 128) in
  let patched := upd (upd buf 28 2%N) 29 2%N in
  let moved := firstn 48 patched ++ firstn 16 (skipn 32 patched) ++ skipn 64 patched in
  n = Ok 48 /\ is_err (negotiate_algorithms_parse_body (body patched)) = true /\ length moved = 128 /\
  negotiate_algorithms_parse_body (body moved) = Ok negotiate_algo.
Proof. vm_compute. repeat split. Qed.
(** algorithms.rs:899-911 *)
Example algorithms_parses_correctly :
  let '(n, buf) := write_algorithms (algo algo_responses) (zero_buf 128) in
  n = Ok 52 /\ parse_header Algorithms_id buf = Ok true /\ algorithms_parse_body (body buf) = Ok (algo algo_responses).
Proof. vm_compute. repeat split. Qed.
(** algorithms.rs:914-929 *)
Example algorithms_with_more_than_one_selection_fails_to_parse :
  let '(n, buf) := write_algorithms (algo algo_requests) (zero_buf 128) in
  n = Ok 52 /\ parse_header Algorithms_id buf = Ok true /\ is_err (algorithms_parse_body (body buf)) = true.
Proof. vm_compute. repeat split. Qed.

Definition test_state : ReqAlgState := mkReqAlg ve_default 0 0 0 0 (Some negotiate_algo) None.
(** requester/algorithms.rs:250-253 *)
Example valid_algorithms_selected : is_ok (ensure_valid_algorithms_selected test_state (algo algo_responses)) = true.
Proof. vm_compute. reflexivity. Qed.
(** requester/algorithms.rs:256-263 *)
Example catch_mismatched_bits :
  is_err (ensure_valid_algorithms_selected test_state
            (mkAlgorithms MeasurementSpec_DMTF SHA_384 ECDSA_ECC_NIST_P256 SHA_256 4 algo_responses)) = true.
Proof. vm_compute. reflexivity. Qed.
(** requester/algorithms.rs:266-279 *)
Example catch_bad_algorithm_response :
  is_err (ensure_valid_algorithms_selected test_state (algo (upd algo_responses 0 (Dhe FFDHE_2048)))) = true.
Proof. vm_compute. reflexivity. Qed.

(** ** src/msgs/digest.rs *)

Definition test_digest (size : nat) (magic : N) : option (list N) := Some (repeat magic size).
Definition test_digests (size : nat) : list (option (list N)) := map (fun i => test_digest size (N.of_nat i)) (seq 0 5).
Definition write_digests_msg d buf := write_msg Digests_id (fun e => e) (digests_write_body d) buf.
(** digest.rs:145-159 *)
Example digest_32_order_0x5_mask :
  let '(n, buf) := write_digests_msg (mkDigests 0x5 (test_digests 32)) (zero_buf 68) in
  n = Ok 68 /\ nth 3 buf 0%N = 0x5%N /\ slice buf 4 36 = repeat 0%N 32 /\ slice buf 36 68 = repeat 2%N 32.
Proof. vm_compute. repeat split. Qed.
(** digest.rs:162-181 *)
Example digest_32_order_0x16_mask :
  let '(n, buf) := write_digests_msg (mkDigests 0x16 (test_digests 32)) (zero_buf 100) in
  n = Ok 100 /\ nth 3 buf 0%N = 0x16%N /\ slice buf 4 36 = repeat 1%N 32 /\ slice buf 36 68 = repeat 2%N 32 /\
  slice buf 68 100 = repeat 4%N 32.
Proof. vm_compute. repeat split. Qed.
Definition digests_round_trip (size buf_len : nat) (d : Digests) : bool :=
  let '(n, buf) := write_digests_msg d (zero_buf buf_len) in
  match n, digests_parse_body size (body buf) with
  | Ok _, Ok d2 => (d_slot_mask d =? d_slot_mask d2)%N &&
                   forallb (fun '(a, b) => match a, b with Some x, Some y => list_eqb x y | None, None => true | _, _ => false end)
                           (combine (d_digests d) (d_digests d2)) &&
                   Nat.eqb (length (d_digests d)) (length (d_digests d2))
  | _, _ => false
  end.
(** digest.rs:184-198 *)
Example round_trip_digest_32_0x5_mask :
  digests_round_trip 32 68 (mkDigests 0x5 [test_digest 32 0; None; test_digest 32 2; None; None]) = true.
Proof. vm_compute. reflexivity. Qed.
(** digest.rs:201-216 *)
Example round_trip_digest_32_0x16_mask :
  digests_round_trip 32 100 (mkDigests 0x16 [None; test_digest 32 1; test_digest 32 2; None; test_digest 32 2]) = true.
Proof. vm_compute. reflexivity. Qed.
(** digest.rs:219-227 *)
Example round_trip_digest_32_0xff_mask : digests_round_trip 32 324 (mkDigests 0xFF (test_digests 32)) = true.
Proof. vm_compute. reflexivity. Qed.
(** digest.rs:230-243 *)
Example round_trip_digest_48_0x2_mask :
  fst (write_digests_msg (mkDigests 0x2 [None; test_digest 48 2; None; None; None]) (zero_buf 52)) = Ok 52 /\
  digests_round_trip 48 52 (mkDigests 0x2 [None; test_digest 48 2; None; None; None]) = true.
Proof. vm_compute. repeat split. Qed.

(** ** src/msgs/certificates.rs *)

(** certificates.rs:350-357 *)
Example get_certificate_round_trip :
  let m := mkGetCertificate 0 0 1000 in
  let '(n, buf) := write_msg GetCertificate_id (fun e => e) (get_certificate_write_body m) (zero_buf 128) in
  is_ok n = true /\ get_certificate_parse_body (body buf) = Ok m.
Proof. vm_compute. repeat split. Qed.
(** certificates.rs:360-378 *)
Example certificate_round_trip :
  let m := mkCertificate 0 800 0 (zero_buf 1024) in
  let '(n, buf) := write_msg Certificate_id (fun e => e) (certificate_write_body m) (zero_buf 1200) in
  is_ok n = true /\ certificate_parse_body (body buf) = Ok m.
Proof. vm_compute. repeat split. Qed.
(** A DER SEQUENCE of [n] content bytes, [256 <= n < 65536], as rcgen makes them. *)
Definition der (tag : N) (n : nat) : list N :=
  [0x30; 0x82; N.of_nat (n / 256); N.of_nat (n mod 256)]%N ++ repeat tag n.
(** certificates.rs:381-402 *)
Example roundtrip_cert_chain_no_intermediate :
  let c := chain_new (zero_buf 32) (der 7 330) in
  let '(n, w) := chain_write c (writer_new (zero_buf 1024)) in
  match n with Ok size => chain_parse (firstn size (w_buf w)) 32 = Ok c | _ => False end.
Proof. vm_compute. reflexivity. Qed.
(** certificates.rs:405-444 *)
Example roundtrip_cert_chain_2_intermediates :
  match append_intermediate_cert (chain_new (zero_buf 32) (der 7 330)) (der 8 301) with
  | Ok c1 =>
    match append_intermediate_cert c1 (der 9 290) with
    | Ok c2 => let '(n, w) := chain_write c2 (writer_new (zero_buf 2048)) in
               match n with Ok size => chain_parse (firstn size (w_buf w)) 32 = Ok c2 | _ => False end
    | _ => False
    end
  | _ => False
  end.
Proof. vm_compute. repeat split. Qed.

(** ** src/msgs/challenge.rs *)

(** challenge.rs:270-276 *)
Example round_trip_challenge :
  let m := mkChallenge 0 MHTcb a_nonce in
  let '(n, buf) := write_msg Challenge_id (fun e => e) (challenge_write_body m) (zero_buf 64) in
  is_ok n = true /\ challenge_parse_body (body buf) = Ok m.
Proof. vm_compute. repeat split. Qed.
(** challenge.rs:279-304 *)
Example round_trip_challenge_auth :
  let m := mkChallengeAuth 0 0x1 false (repeat 9%N 32) (repeat 13%N 32) (repeat 7%N 32) [] (repeat 1%N 64) in
  let '(n, buf) := write_msg ChallengeAuth_id wca_from (challenge_auth_write_body m) (zero_buf 256) in
  is_ok n = true /\ challenge_auth_parse_body (body buf) 32 64 = Ok m.
Proof. vm_compute. repeat split. Qed.

(** ** src/msgs/error.rs *)

Definition write_error m buf := write_msg Error_id (fun e => e) (error_write_body m) buf.
Definition test_vendor : ErrorMsg := VendorDef Jedec (mkVD (VU16 0x1234) []).
(** error.rs:260-297; the buffer is reused, so bytes of earlier messages stay behind. *)
Example roundtrip :
  let m1 := ResponseTooLarge 56789 in let m2 := UnexpectedRequest in let m3 := RespNotReady (mkRNR 1 2 3 4) in
  let '(n1, b1) := write_error m1 (zero_buf 64) in
  let '(n2, b2) := write_error m2 b1 in
  let '(n3, b3) := write_error m3 b2 in
  let '(n4, b4) := write_error test_vendor b3 in
  (n1 = Ok 8 /\ error_parse_body (body b1) = Ok m1) /\ (n2 = Ok 4 /\ error_parse_body (body b2) = Ok m2) /\
  (n3 = Ok 8 /\ error_parse_body (body b3) = Ok m3) /\ (n4 = Ok 7 /\ error_parse_body (body b4) = Ok test_vendor) /\
  is_err (error_parse_body (body (upd b4 4 6%N))) = true.
Proof. vm_compute. repeat split. Qed.

(** ** src/msgs/common.rs *)

(** common.rs:516-541 *)
Example roundtrip_opaque_data :
  let data := [mkOE Dmtf VEmpty [1]; mkOE Tcg (VU16 0x2222) [4; 4; 4; 4]]%N in
  let '(n, w) := od_write data (writer_new (zero_buf 1024)) in
  is_ok n = true /\ fst (od_read (reader_new (w_buf w))) = Ok data.
Proof. vm_compute. repeat split. Qed.
(** common.rs:544-555 *)
Example mismatched_vendor_register_id_detected_during_write :
  is_err (fst (oe_write (mkOE Tcg VEmpty (repeat 4%N 4)) (writer_new (zero_buf 1024)))) = true.
Proof. vm_compute. reflexivity. Qed.
(** common.rs:558-577 *)
Example mismatched_vendor_register_id_detected_during_read :
  let '(n, w) := oe_write (mkOE Tcg (VU16 0x1111) (repeat 4%N 4)) (writer_new (zero_buf 1024)) in
  is_ok n = true /\ is_err (fst (oe_read (reader_new (upd (w_buf w) 1 4%N)))) = true.
Proof. vm_compute. repeat split. Qed.

(** ** src/msgs/measurements.rs *)

Definition write_gm m buf := write_msg GetMeasurements_id wgm_from (get_measurements_write_body m) buf.
Definition write_meas m buf := write_msg Measurements_id wm_from (measurements_write_body m) buf.
Definition both : RequestAttributes := mkRA true true.
(** measurements.rs:892-922 *)
Example get_measurements_roundtrip :
  match @get_measurements_new sample_cfg unit both AllMeasurements 0 a_nonce with
  | Ok m =>
    let '(n, buf) := write_gm m (zero_buf 64) in
    let m2 := mkGM (mkRA false true) (gm_index m) (gm_nonce m) (gm_slot_id m) in
    let '(n2, buf2) := write_gm m2 buf in
    n = Ok 37 /\ get_measurements_parse_body (body buf) = Ok m /\ n2 = Ok 4 /\
    get_measurements_parse_body (body buf2) = Ok (mkGM (mkRA false true) (gm_index m) None (gm_slot_id m))
  | _ => False
  end.
Proof. vm_compute. repeat split. Qed.
(** measurements.rs:925-946 *)
Example get_measurements_write_err :
  match @get_measurements_new sample_cfg unit both (Reserved 0x5) 0 a_nonce with
  | Ok m =>
    let with_index i := mkGM (gm_attributes m) i (gm_nonce m) (gm_slot_id m) in
    is_err (fst (write_gm m (zero_buf 64))) = true /\
    is_err (fst (write_gm (with_index (ImplementationDefined 0xFE)) (zero_buf 64))) = true /\
    is_ok (fst (write_gm (with_index (ImplementationDefined 0x4)) (zero_buf 64))) = true
  | _ => False
  end.
Proof. vm_compute. repeat split. Qed.
(** measurements.rs:949-987 *)
Example get_measurements_read_err :
  match @get_measurements_new sample_cfg unit both IdxDeviceMode 0 a_nonce with
  | Ok m =>
    let '(n, buf) := write_gm m (zero_buf 64) in
    is_ok n = true /\ get_measurements_parse_body (body buf) = Ok m /\
    is_err (get_measurements_parse_body (body (upd buf 2 0xCE%N))) = true /\
    is_err (get_measurements_parse_body (body (upd buf 36 (N.of_nat NUM_SLOTS)))) = true
  | _ => False
  end.
Proof. vm_compute. repeat split. Qed.
(** [new…], [write] into 1024 bytes, [parse_body]: the message comes back. *)
Definition meas_round_trip (new : res unit Measurements) (sig : bool) : Prop :=
  match new with
  | Ok m => let '(n, buf) := write_meas m (zero_buf 1024) in
            is_ok n = true /\ measurements_parse_body (body buf) sig 64 = Ok m
  | _ => False
  end.
(** measurements.rs:990-1013 *)
Example measurements_with_total_roundtrip_no_sig :
  meas_round_trip (measurements_new_with_num 5 CCNotSupported 0 a_nonce [] None) false.
Proof. vm_compute. repeat split. Qed.
(** measurements.rs:1016-1036 *)
Example measurements_with_total_roundtrip_with_sig :
  meas_round_trip (measurements_new_with_num 5 CCNotSupported 0 a_nonce [] (Some (repeat 0xaf%N 64))) true.
Proof. vm_compute. repeat split. Qed.
Definition test_blocks : MeasurementBlocks :=
  mkMBs 1 (Some (mkMB 1 MeasurementSpec_DMTF (mkDM ReprDigest VTMutableFirmware (MVDigest (repeat 0xcc%N 32)))) :: repeat None 7).
Definition test_meas : res unit Measurements :=
  measurements_new_with_measurements CCTrue 0 test_blocks a_nonce [] (Some (repeat 0xde%N 64)).
(** measurements.rs:1039-1077 *)
Example measurements_roundtrip :
  meas_round_trip (measurements_new_with_measurements CCTrue 0 test_blocks a_nonce [] None) false.
Proof. vm_compute. repeat split. Qed.
(** measurements.rs:1080-1118 *)
Example measurements_with_sig_roundtrip : meas_round_trip test_meas true.
Proof. vm_compute. repeat split. Qed.
(** measurements.rs:1121-1167 *)
Example measurements_parse_size_mismatch :
  match test_meas with
  | Ok m => let '(n, buf) := write_meas m (zero_buf 1024) in
            let buf := upd (upd (upd buf 5 5%N) 6 0%N) 7 0%N in
            is_ok n = true /\ measurements_parse_body (body buf) true 64 = Err (PMBlocks PMBsMeasurementSizeMismatch)
  | _ => False
  end.
Proof. vm_compute. repeat split. Qed.
(** measurements.rs:1170-1212 *)
Example measurements_parse_max_slot_num_exceeded :
  match test_meas with
  | Ok m => let '(n, buf) := write_meas m (zero_buf 1024) in
            let buf := upd buf 3 (N.lor (nth 3 buf 0%N) 0x0F) in
            is_ok n = true /\ measurements_parse_body (body buf) true 64 = Err PMMaxSlotNumberExceeded
  | _ => False
  end.
Proof. vm_compute. repeat split. Qed.

(** ** tests/protocol.rs *)

(** Slots 0, 2 and 4 filled with root hash, one intermediate and a leaf each. *)
Definition e2e_chain (tag : N) : CertificateChain := mkChain (repeat tag 32) (der tag 300) [der (tag + 1) 290].
Definition e2e_slots : list (option FilledSlot) :=
  map (fun i => if Nat.even i then Some (mkSlot ECDSA_ECC_NIST_P256 SHA_256 (e2e_chain (N.of_nat i + 1)) toy_signer) else None) (seq 0 5).
(** What the test asserts of both sides after each exchange: both state names,
    the result of the requester's [handle_msg], and that the transcripts agree. *)
Fixpoint e2e (n : nat) (k : N) (q : Requester) (r : Responder) : list (option (string * string * bool * bool)) * Requester * Responder :=
  match n with
  | O => ([], q, r)
  | S n =>
    match exchange k q r with
    | Some (_, _, b, q1, r1) =>
      let '(l, q2, r2) := e2e n (k + 1) q1 r1 in
      (match req_state q1, rsp_state r1 with
       | Some sq, Some sr => Some (req_state_name sq, rsp_state_name sr, b,
                                   list_eqb (t_get (req_transcript q1)) (t_get (rsp_transcript r1)))
       | _, _ => None
       end :: l, q2, r2)
    | None => ([], q, r)
    end
  end.
(** protocol.rs:349-369 (successful_e2e); the toy crypto of SampleRun stands for ring and webpki. *)
Example successful_e2e :
  fst (fst (e2e 6 1 (requester_new [1; 2; 3]%N) (responder_new e2e_slots))) =
  [Some ("Capabilities", "Capabilities", false, true); Some ("Algorithms", "Algorithms", false, true);
   Some ("IdAuth", "IdAuth", false, true); Some ("IdAuth", "IdAuth", false, true);
   Some ("Challenge", "Challenge", false, true); Some ("NewSession", "Challenge", true, true)]%string.
Proof. vm_compute. reflexivity. Qed.
(** protocol.rs:186-233: the algorithms the requester holds in IdAuth. *)
Example successful_e2e_algorithms :
  let '(_, q, _) := e2e 3 1 (requester_new [1; 2; 3]%N) (responder_new e2e_slots) in
  match req_state q with
  | Some (ReqIdAuth s) =>
    qi_algorithms s = mkAlgorithms MeasurementSpec_DMTF SHA_256 ECDSA_ECC_NIST_P256 SHA_256 4
      [Dhe FFDHE_3072; Aead AES_256_GCM; ReqBaseAsym ECDSA_ECC_NIST_P256; KeySchedule KeySchedule_SPDM]
  | _ => False
  end.
Proof. vm_compute. reflexivity. Qed.
(** protocol.rs:317-344 (assert_digests_match_cert_chains) after DIGESTS. *)
Example successful_e2e_digests :
  let '(_, q, _) := e2e 4 1 (requester_new [1; 2; 3]%N) (responder_new e2e_slots) in
  match req_state q with
  | Some (ReqIdAuth s) =>
    match qi_digests s with
    | Some d => d_slot_mask d = 0x15%N /\
      forallb (fun '(slot, dg) => match slot, dg with
         | Some sl, Some x => let '(n, w) := chain_write (fs_chain sl) (writer_new (zero_buf 1024)) in
                              match n with Ok size => list_eqb x (toy_hash SHA_256 (firstn size (w_buf w))) | _ => false end
         | None, None => true | _, _ => false end) (combine e2e_slots (d_digests d)) = true
    | None => False
    end
  | _ => False
  end.
Proof. vm_compute. repeat split. Qed.

Definition test_get_version : list N := firstn 4 (snd (write_msg GetVersion_id (fun e : BufferFullError => e) get_version_write_body (zero_buf 512))).
Definition goes_to_capabilities (h : H (nat * RspStates)) : bool :=
  match fst (h (mkCtx (zero_buf 512) transcript_new)) with Ok (_, RspCapabilities _) => true | _ => false end.
(** protocol.rs:377-394 *)
Example reset_to_capabilities_state_from_capabilities_state :
  goes_to_capabilities (capabilities_handle_msg rsp_cap_new test_get_version) = true.
Proof. vm_compute. reflexivity. Qed.
(** protocol.rs:402-419 *)
Example reset_to_capabilities_state_from_algorithms_state :
  goes_to_capabilities (algorithms_handle_msg (mkRspAlg 0 0 0 0 None) test_get_version) = true.
Proof. vm_compute. reflexivity. Qed.

(** ** src/crypto/ring/digest.rs *)

(** ring/digest.rs:102-106 ([#[should_panic]]); "test\n". *)
Example ring_digest_unsupported :
  match @provided_digest sample_cfg sample_crypto unit SHA3_256 [0x74; 0x65; 0x73; 0x74; 0x0a]%N with Panic _ => True | _ => False end.
Proof. vm_compute. exact I. Qed.
