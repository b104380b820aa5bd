(** Concrete configurations and values used by the non-vacuity examples. *)
From Verif Require Import Base Config.

(** The values of /repo/spdm-config-crypto.toml, debug build. *)
Definition sample_cfg : Config :=
  Build_Config 5 1024 4 4096 64 64 16 2 8 1024
               ["CERT_CAP"; "CHAL_CAP"; "ENCRYPT_CAP"; "MAC_CAP"; "MUT_AUTH_CAP"; "KEY_EX_CAP"; "KEY_UPD_CAP"]%string ["ECDSA_ECC_NIST_P256"]%string true true.
