(** The public hashing and signing interface: src/crypto/digest.rs,
    src/crypto/ring/digest.rs, src/crypto/ring/signing.rs. *)
From Verif Require Import Base Config Encoding MsgCommon MsgAlgorithms Crypto.

(** A hash implementation of the ring_compat crate (crypto::digest::Digest):
    new, update, finalize.  External code: its state is left abstract. *)
Record HashImpl := mkHashImpl {
  h_state : Type; h_new : h_state; h_update : h_state -> list N -> h_state; h_finalize : h_state -> list N
}.
(** ring_compat::digest::{Sha256, Sha384, Sha512}, src/crypto/ring/digest.rs:7 *)
Record HashImpls := mkHashImpls { hi_sha256 : HashImpl; hi_sha384 : HashImpl; hi_sha512 : HashImpl }.

Section CryptoApi.
Context {cfg : Config}.
Variable hi : HashImpls.
(** enum ProvidedDigests, src/crypto/ring/digest.rs:13-19 (and the enum of the
    macro impl_digests, src/crypto/digest.rs:65-67) *)
Inductive ProvidedDigests :=
| PSha256 (d : h_state (hi_sha256 hi)) | PSha384 (d : h_state (hi_sha384 hi)) | PSha512 (d : h_state (hi_sha512 hi)).
(** impl TryFrom<BaseHashAlgo> for ProvidedDigests, src/crypto/ring/digest.rs:27-37 *)
Definition digests_try_from (algo : N) : option ProvidedDigests :=
  if (algo =? SHA_256)%N then Some (PSha256 (h_new (hi_sha256 hi)))
  else if (algo =? SHA_384)%N then Some (PSha384 (h_new (hi_sha384 hi)))
  else if (algo =? SHA_512)%N then Some (PSha512 (h_new (hi_sha512 hi)))
  else None.
(** Digests::update, src/crypto/digest.rs:70-74 *)
Definition digests_update (self : ProvidedDigests) (data : list N) : ProvidedDigests :=
  match self with
  | PSha256 d => PSha256 (h_update _ d data)
  | PSha384 d => PSha384 (h_update _ d data)
  | PSha512 d => PSha512 (h_update _ d data)
  end.
(** Digests::finalize, src/crypto/digest.rs:76-84: [try_into().unwrap()] fails
    for an output longer than MAX_DIGEST_SIZE (DigestBuf::try_from,
    src/msgs/common.rs; storage in Bufs.v) *)
Definition digests_finalize {E} (self : ProvidedDigests) : res E (list N) :=
  let out := match self with
             | PSha256 d => h_finalize _ d | PSha384 d => h_finalize _ d | PSha512 d => h_finalize _ d
             end in
  if length out <=? MAX_DIGEST_SIZE then Ok out else Panic PUnwrap.
(** Digests::digest, src/crypto/digest.rs:86-93 *)
Definition digests_digest {E} (algo : N) (data : list N) : res E (list N) :=
  match digests_try_from algo with
  | None => Panic PUnwrap
  | Some digests => digests_finalize (digests_update digests data)
  end.
End CryptoApi.

(** Signing keys of ring (external): parsing PKCS#8 for one of ring's algorithms
    and signing. *)
Record RingKeys := mkRingKeys { rk_key : Type; rk_from_pkcs8 : N -> list N -> option rk_key; rk_sign : rk_key -> list N -> list N -> option (list N) }.
Section Signing.
Variable rk : RingKeys.
(** spdm_to_ring, src/crypto/ring/signing.rs:18-24; ring's algorithm is
    identified by the SPDM one *)
Definition spdm_to_ring {E} (algorithm : N) : res E N :=
  if (algorithm =? ECDSA_ECC_NIST_P256)%N then Ok ECDSA_ECC_NIST_P256
  else if (algorithm =? ECDSA_ECC_NIST_P384)%N then Ok ECDSA_ECC_NIST_P384
  else Panic PUnimplemented.
(** RingSigner::new, src/crypto/ring/signing.rs:49-57 *)
Definition ring_signer_new (algorithm : N) (private_key : list N) : res unit (rk_key rk) :=
  match rk_from_pkcs8 rk algorithm private_key with Some k => Ok k | None => Err tt end.
(** new_signer, src/crypto/ring/signing.rs:33-39 *)
Definition new_signer (algorithm : N) (private_key : list N) : res unit (rk_key rk) :=
  rbind (spdm_to_ring algorithm) (fun algorithm => ring_signer_new algorithm private_key).
(** RingSigner::sign, src/crypto/ring/signing.rs:62-68; as a [Signer] of Crypto.v *)
Definition ring_sign (key_pair : rk_key rk) : Signer := fun rng msg =>
  match rk_sign rk key_pair rng msg with Some s => Ok s | None => Err tt end.
End Signing.
