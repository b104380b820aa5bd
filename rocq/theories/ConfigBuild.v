(** Model of build.rs: validation of spdm-config.toml and generation of the
    constants.  TOML parsing is not modelled: the input is the deserialized
    record, the output the record of generated constants (their text: ConfigText.v). *)
From Verif Require Import Base Config.

(** build.rs:17-41 *)
Inductive SpdmConfigError :=
| InvalidNumCertChains | CertChainDepthTooLarge | CertChainBufferTooLarge
| InvalidAsymmetricSigningAlgorithm (s : string) | InvalidCapability (s : string)
| CryptoCapNotSupported (l : list string).

(** build.rs:44-99 *)
Record SpdmConfig := mkSpdmConfig {
  sc_num_slots : nat; sc_buf_size : nat; sc_max_depth : nat;
  sc_transcript_buf_size : nat;
  sc_capabilities : list string;
  sc_max_digest_size : nat; sc_asymmetric_signing : list string;
  sc_meas_max_blocks : nat; sc_meas_max_size : nat;
  sc_opaque_max_elements : nat; sc_opaque_max_element_data_size : nat
}.

(** build.rs:61-73.  65536 is compared in N to keep the literal small. *)
Definition cert_chains_validate (c : SpdmConfig) : res SpdmConfigError unit :=
  if (sc_num_slots c <? 1) || (8 <? sc_num_slots c) then Err InvalidNumCertChains
  else if (65536 <? N.of_nat (sc_buf_size c))%N then Err CertChainBufferTooLarge
  else if 24 <? sc_max_depth c then Err CertChainDepthTooLarge
  else Ok tt.

Local Open Scope string_scope.
(** build.rs:106-121 *)
Fixpoint max_signature_size (algos : list string) : res SpdmConfigError nat :=
  match algos with
  | [] => Ok 64
  | a :: r => if String.eqb a "ECDSA_ECC_NIST_P256" then max_signature_size r
              else Err (InvalidAsymmetricSigningAlgorithm a)
  end.

(** build.rs:135-136 *)
Definition allowed_caps : list string :=
  ["CERT_CAP"; "CHAL_CAP"; "ENCRYPT_CAP"; "MAC_CAP"; "MUT_AUTH_CAP"; "KEY_EX_CAP"; "KEY_UPD_CAP"].
Local Close Scope string_scope.

(** build.rs:133-142 *)
Fixpoint check_caps (caps : list string) : res SpdmConfigError unit :=
  match caps with
  | [] => Ok tt
  | c :: r => if existsb (String.eqb c) allowed_caps then check_caps r else Err (InvalidCapability c)
  end.
(** build.rs:124-143; [crypto_ring] is the CARGO_FEATURE_CRYPTO_RING test. *)
Definition validate_capabilities (crypto_ring : bool) (caps : list string) : res SpdmConfigError unit :=
  if negb crypto_ring && negb (match caps with [] => true | _ => false end)
  then Err (CryptoCapNotSupported caps)
  else check_caps caps.

(** build.rs:153-181 with config.rs.template: the constants in template order.
    [oc] and [rand] are the build profile and the [rand] feature. *)
Definition gen_config (crypto_ring oc rand : bool) (c : SpdmConfig) : res SpdmConfigError Config :=
  rbind (max_signature_size (sc_asymmetric_signing c)) (fun max_sig =>
  rbind (cert_chains_validate c) (fun _ =>
  rbind (validate_capabilities crypto_ring (sc_capabilities c)) (fun _ =>
  Ok {| NUM_SLOTS := sc_num_slots c;
        MAX_CERT_CHAIN_SIZE := sc_buf_size c;
        MAX_CERT_CHAIN_DEPTH := sc_max_depth c;
        TRANSCRIPT_SIZE := sc_transcript_buf_size c;
        MAX_DIGEST_SIZE := sc_max_digest_size c;
        MAX_SIGNATURE_SIZE := max_sig;
        MAX_OPAQUE_ELEMENT_DATA_SIZE := sc_opaque_max_element_data_size c;
        MAX_OPAQUE_ELEMENTS := sc_opaque_max_elements c;
        MAX_MEASUREMENT_BLOCKS := sc_meas_max_blocks c;
        MAX_MEASUREMENT_SIZE := sc_meas_max_size c;
        CAPABILITIES := sc_capabilities c;
        SIGNING_ALGOS := sc_asymmetric_signing c;
        overflow_checks := oc;
        feature_rand := rand |}))).
