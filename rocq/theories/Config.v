(** Build-time constants: config.rs.template:5-44 as generated by
    build.rs:153-181 (all constants) and included by src/config.rs:5, plus the build profile.
    Theorems quantify over every such record; [valid_config] (ConfigBuild.v)
    says which ones build.rs accepts. *)
From Verif Require Import Base.

Class Config := {
  NUM_SLOTS : nat;
  MAX_CERT_CHAIN_SIZE : nat;
  MAX_CERT_CHAIN_DEPTH : nat;
  TRANSCRIPT_SIZE : nat;
  MAX_DIGEST_SIZE : nat;
  MAX_SIGNATURE_SIZE : nat;
  MAX_OPAQUE_ELEMENT_DATA_SIZE : nat;
  MAX_OPAQUE_ELEMENTS : nat;
  MAX_MEASUREMENT_BLOCKS : nat;
  MAX_MEASUREMENT_SIZE : nat;
  CAPABILITIES : list string;
  SIGNING_ALGOS : list string;
  (** Are arithmetic overflow checks compiled in (debug profile)? *)
  overflow_checks : bool;
  (** Is the [rand] cargo feature on (Cargo.toml; src/crypto/nonce.rs:5-46)? *)
  feature_rand : bool;
}.
