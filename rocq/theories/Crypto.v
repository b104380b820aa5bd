(** Model of src/crypto: the DER conversion of src/crypto/pki.rs function by
    function, the ring and no-crypto providers as wrappers around oracles for the
    external crates (sha2 via ring, webpki, OsRng), and slots. *)
From Verif Require Import Base Config Encoding MsgCommon MsgAlgorithms MsgCertificates.

(** src/crypto/pki.rs:10-13 *)
Inductive PkiError := PkiInvalidCert | ValidationFailed.

(** src/crypto/pki.rs:46-47 *)
Definition DER_TAG_SEQUENCE : N := 0x30.
Definition DER_TAG_INTEGER : N := 0x02.

(** src/crypto/pki.rs:174-182 *)
Definition der_length (size : nat) : nat :=
  if size <? 128 then 1 else if size <? 256 then 2 else 3.

(** The functions of pki.rs write into sub-slices [&mut out[k..]] of one output
    buffer.  A sub-slice is the buffer and its start; [set k v] is [out[k] = v]. *)
Definition OutM A := M (list N) Empty_set A.
Definition o_set (i : nat) (v : N) : OutM unit := fun out =>
  if i <? length out then (Ok tt, upd out i v) else (Panic PIndex, out).
(** [&mut out[start..]]: the slice itself panics when [start] exceeds the length. *)
Definition o_slice (start : nat) : OutM unit := fun out =>
  if start <=? length out then (Ok tt, out) else (Panic PIndex, out).

(** src/crypto/pki.rs:125-141; [at] is the start of the sub-slice.  Assignments
    happen in source order. *)
Definition write_der_length (at_ : nat) (len : nat) : OutM nat :=
  if len <? 128 then
    o_set at_ (N.of_nat len) ;;; ret 1
  else if len <? 256 then
    o_set at_ 0x81%N ;;; o_set (at_ + 1) (N.of_nat len) ;;; ret 2
  else if negb (N.of_nat len <? 65536)%N then pnc PAssert
  else
    o_set at_ 0x82%N ;;;
    o_set (at_ + 1) (N.of_nat len / 256)%N ;;;
    o_set (at_ + 2) (N.of_nat len mod 256)%N ;;;
    ret 3.

(** [out[start..][..n].copy_from_slice(bs)] with n = bs.len() *)
Definition o_copy (start : nat) (bs : list N) : OutM unit := fun out =>
  if start + length bs <=? length out
  then (Ok tt, firstn start out ++ bs ++ skipn (start + length bs) out)
  else (Panic PIndex, out).

(** [integer[0] & 0x80 != 0] as 1 or 0; indexing an empty slice panics. *)
Definition pad_of {E} (i : list N) : res E nat :=
  match i with
  | [] => Panic PIndex
  | b :: _ => Ok (if (N.land b 0x80 =? 0)%N then 0 else 1)
  end.

(** src/crypto/pki.rs:109-120 *)
Definition integer_to_der (at_ : nat) (integer : list N) : OutM nat :=
  pad <- lift (pad_of integer) ;;
  o_set at_ DER_TAG_INTEGER ;;;
  o_slice (at_ + 1) ;;;
  n <- write_der_length (at_ + 1) (length integer + pad) ;;
  let written := 1 + n in
  written <- (if pad =? 1 then o_set (at_ + written) 0%N ;;; ret (written + 1) else ret written) ;;
  o_slice (at_ + written) ;;;
  o_copy (at_ + written) integer ;;;
  ret (written + length integer).

(** [i.iter().position(|b| *b != 0)] *)
Fixpoint first_nonzero (i : list N) : option nat :=
  match i with
  | [] => None
  | b :: r => if (b =? 0)%N then option_map S (first_nonzero r) else Some 0
  end.

(** src/crypto/pki.rs:99-104 *)
Definition get_start_and_length {E} (i : list N) : res E (nat * nat) :=
  match first_nonzero i with
  | None => Panic PUnwrap
  | Some start =>
    rbind (pad_of (skipn start i)) (fun pad => Ok (start, length i - start + pad))
  end.

(** src/crypto/pki.rs:75-95 *)
Definition bin_to_der (signature : list N) : OutM nat :=
  let value_size := length signature / 2 in
  let r := firstn value_size signature in
  let s := skipn value_size signature in
  '(r_start, r_len) <- lift (get_start_and_length r) ;;
  '(s_start, s_len) <- lift (get_start_and_length s) ;;
  let sig_len := 2 + r_len + s_len + der_length r_len + der_length s_len in
  o_set 0 DER_TAG_SEQUENCE ;;;
  o_slice 1 ;;;
  n <- write_der_length 1 sig_len ;;
  let written := 1 + n in
  o_slice written ;;;
  n <- integer_to_der written (skipn r_start r) ;;
  let written := written + n in
  o_slice written ;;;
  n <- integer_to_der written (skipn s_start s) ;;
  ret (written + n).

(** src/crypto/pki.rs:154-170 *)
Definition max_encoded_size {cfg : Config} : nat :=
  let hash_size := MAX_SIGNATURE_SIZE / 2 in
  let size_bytes_needed_per_hash := der_length hash_size in
  let body_size := MAX_SIGNATURE_SIZE + 2 + 2 * 1 + size_bytes_needed_per_hash * 2 in
  1 + der_length body_size + body_size.

(** Which of the two providers is compiled in (src/crypto/mod.rs:14-26). *)
Inductive Provider := ProviderRing | ProviderNone.

(** The external crates, as oracles.  [sha] is the hash function of each
    supported algorithm (ring); [webpki_*] are webpki's certificate parser,
    trust-anchor parser, chain validation and signature verification. *)
Class Crypto := {
  provider : Provider;
  sha : N -> list N -> list N;
  webpki_cert_ok : list N -> bool;
  webpki_anchor_ok : list N -> bool;
  webpki_chain_ok : N -> list N -> list (list N) -> list N -> N -> bool;
  webpki_sig_ok : N -> list N -> list N -> list N -> bool;
}.

Section Crypto.
Context {cfg : Config} {cr : Crypto}.

(** src/crypto/ring/digest.rs:22-24, src/crypto/no_crypto_defaults.rs:36-38 *)
Definition supported_algorithms : N :=
  match provider with
  | ProviderRing => N.lor (N.lor SHA_256 SHA_384) SHA_512
  | ProviderNone => SHA_256
  end.

(** src/crypto/digest.rs:86-93 with src/crypto/ring/digest.rs:27-37 (the hash
    object is created for the three SHA-2 algorithms only, anything else is an
    unwrapped [Err]) and DigestBuf::try_from(..).unwrap() (digest.rs:80);
    src/crypto/no_crypto_defaults.rs:49-51. *)
Definition provided_digest {E} (algo : N) (data : list N) : res E (list N) :=
  match provider with
  | ProviderRing =>
    if (algo =? SHA_256)%N || (algo =? SHA_384)%N || (algo =? SHA_512)%N then
      let d := sha algo data in
      if length d <=? MAX_DIGEST_SIZE then Ok d else Panic PUnwrap
    else Panic PUnwrap
  | ProviderNone => Panic PUnimplemented
  end.

(** src/crypto/ring/pki.rs:11-15, 38-44: the leaf certificate stands for the
    parsed object; src/crypto/no_crypto_defaults.rs:61-65. *)
Definition new_end_entity_cert (leaf : list N) : res PkiError (list N) :=
  match provider with
  | ProviderRing => if webpki_cert_ok leaf then Ok leaf else Err PkiInvalidCert
  | ProviderNone => Ok leaf
  end.

(** src/crypto/ring/pki.rs:23-29: the SPDM number stands for the webpki
    algorithm. *)
Definition spdm_to_webpki {E} (algo : N) : res E N :=
  if (algo =? ECDSA_ECC_NIST_P256)%N then Ok algo
  else if (algo =? ECDSA_ECC_NIST_P384)%N then Ok algo
  else Panic PUnimplemented.

(** src/crypto/ring/pki.rs:47-57, src/crypto/no_crypto_defaults.rs:72-74 *)
Definition verify_signature {E} (cert : list N) (algorithm : N) (msg signature : list N) : res E bool :=
  match provider with
  | ProviderRing =>
    rbind (spdm_to_webpki algorithm) (fun algo =>
      match bin_to_der signature (repeat 0%N max_encoded_size) with
      | (Ok size, der) =>
        if size <=? length der then Ok (webpki_sig_ok algo cert msg (firstn size der))
        else Panic PIndex
      | (Err e, _) => match e with end
      | (Panic p, _) => Panic p
      end)
  | ProviderNone => Panic PUnimplemented
  end.

(** src/crypto/ring/pki.rs:59-88, src/crypto/no_crypto_defaults.rs:76-84 *)
Definition verify_chain_of_trust (cert : list N) (algorithm : N) (intermediates : list (list N))
           (root : list N) (seconds : N) : res PkiError unit :=
  match provider with
  | ProviderRing =>
    if webpki_anchor_ok root then
      rbind (spdm_to_webpki algorithm) (fun algo =>
        if webpki_chain_ok algo cert intermediates root seconds then Ok tt
        else Err ValidationFailed)
    else Err PkiInvalidCert
  | ProviderNone => Panic PUnimplemented
  end.

(** src/crypto/signing.rs:9, 15-19: a user supplied signer.  Its first argument
    is the randomness (or hardware state) of this call. *)
Definition Signer := list N -> list N -> res unit (list N).

(** src/crypto/slot.rs:28-33 *)
Record FilledSlot := mkSlot {
  fs_signing_algorithm : N; fs_hash_algorithm : N; fs_chain : CertificateChain; fs_signer : Signer
}.

(** src/crypto/nonce.rs:20-24, 39-41: [fresh] is what OsRng fills in. *)
Definition nonce_new (fresh : list N) : list N := if feature_rand then fresh else [].

End Crypto.
