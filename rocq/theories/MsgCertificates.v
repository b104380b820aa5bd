(** Model of src/msgs/certificates.rs. *)
From Verif Require Import Base Config Encoding MsgCommon.

(** src/msgs/certificates.rs:29-31, 67-69 *)
Definition GetCertificate_id := mkMsgId 0x11 0x82.
Definition Certificate_id := mkMsgId 0x11 0x02.

Section Certificates.
Context {cfg : Config}.

(** src/msgs/certificates.rs:20-24 *)
Record GetCertificate := mkGetCertificate { gcert_slot : N; gcert_offset : N; gcert_length : N }.

(** src/msgs/certificates.rs:35-40 *)
Definition get_certificate_write_body (m : GetCertificate) : M Writer BufferFullError nat :=
  put (gcert_slot m) ;;; put_reserved 1 ;;; put_u16 (gcert_offset m) ;;; put_u16 (gcert_length m).

(** src/msgs/certificates.rs:44-52 *)
Definition get_certificate_parse : M Reader ReadError GetCertificate :=
  slot <- get_byte ;;
  skip_reserved 1 ;;;
  offset <- get_u16 ;;
  len <- get_u16 ;;
  ret (mkGetCertificate slot offset len).
Definition get_certificate_parse_body (buf : list N) := run_parser get_certificate_parse buf.

(** src/msgs/certificates.rs:57-62; [cert_chain] is the whole
    MAX_CERT_CHAIN_SIZE byte array. *)
Record Certificate := mkCertificate {
  cert_slot : N; cert_portion_length : N; cert_remainder_length : N; cert_chain : list N
}.

(** src/msgs/certificates.rs:73-79 *)
Definition certificate_write_body (m : Certificate) : M Writer BufferFullError nat :=
  put (cert_slot m) ;;;
  put_reserved 1 ;;;
  put_u16 (cert_portion_length m) ;;;
  put_u16 (cert_remainder_length m) ;;;
  (if length (cert_chain m) <? N.to_nat (cert_portion_length m) then pnc PIndex
   else w_extend (firstn (N.to_nat (cert_portion_length m)) (cert_chain m))).

(** src/msgs/certificates.rs:83-86 *)
Inductive ParseCertificateError := PCTooLarge | PCRead (e : ReadError).

(** src/msgs/certificates.rs:95-110: the bytes read followed by the untouched
    zeros of the array. *)
Definition certificate_parse : M Reader ParseCertificateError Certificate :=
  slot <- map_err PCRead get_byte ;;
  map_err PCRead (skip_reserved 1) ;;;
  portion_length <- map_err PCRead get_u16 ;;
  if MAX_CERT_CHAIN_SIZE <? N.to_nat portion_length then err PCTooLarge
  else
  remainder_length <- map_err PCRead get_u16 ;;
  bs <- map_err PCRead (get_slice (N.to_nat portion_length) MAX_CERT_CHAIN_SIZE) ;;
  ret (mkCertificate slot portion_length remainder_length
         (bs ++ repeat 0%N (MAX_CERT_CHAIN_SIZE - length bs))).
Definition certificate_parse_body (buf : list N) := run_parser certificate_parse buf.

(** src/msgs/certificates.rs:122-132.  [cc_intermediates] is the visible part
    [intermediate_certs()] (:199-201) of the array. *)
Record CertificateChain := mkChain {
  cc_root_hash : list N; cc_leaf_cert : list N; cc_intermediates : list (list N)
}.

(** src/msgs/certificates.rs:183-196 *)
Definition chain_new (root_hash leaf_cert : list N) : CertificateChain := mkChain root_hash leaf_cert [].

(** src/msgs/certificates.rs:147 *)
Inductive MaxCertChainDepthExceededError := MaxCertChainDepthExceeded.

(** src/msgs/certificates.rs:208-218; the u8 counter cannot overflow because the
    depth is at most 24 (build.rs). *)
Definition append_intermediate_cert (c : CertificateChain) (cert : list N)
  : res MaxCertChainDepthExceededError CertificateChain :=
  if length (cc_intermediates c) =? MAX_CERT_CHAIN_DEPTH then Err MaxCertChainDepthExceeded
  else Ok (mkChain (cc_root_hash c) (cc_leaf_cert c) (cc_intermediates c ++ [cert])).

(** src/msgs/certificates.rs:150-159 *)
Inductive WriteCertificateChainError := MaxSizeExceeded | WCCBufferFull.
Definition wcc_from (e : BufferFullError) : WriteCertificateChainError := WCCBufferFull.

(** src/msgs/certificates.rs:225-229 *)
Definition chain_length (c : CertificateChain) : nat :=
  4 + length (cc_root_hash c)
  + fold_left (fun acc i => acc + length i) (cc_intermediates c) 0
  + length (cc_leaf_cert c).

(** src/msgs/certificates.rs:221-241 *)
Definition chain_write (c : CertificateChain) : M Writer WriteCertificateChainError nat :=
  let len := N.of_nat (chain_length c) in
  if (65535 <? len)%N then err MaxSizeExceeded
  else
  map_err wcc_from (put_u16 (len mod 65536)) ;;;
  map_err wcc_from (put_reserved 2) ;;;
  map_err wcc_from (w_extend (cc_root_hash c)) ;;;
  iterM (cc_intermediates c) (fun i => map_err wcc_from (w_extend i) ;;; ret tt) ;;;
  map_err wcc_from (w_extend (cc_leaf_cert c)) ;;;
  w_offset.

(** src/msgs/certificates.rs:162-167 *)
Inductive ParseCertificateChainError :=
| BadDerEncoding | LengthMismatch | MaxDepthExceeded | PCCRead (e : ReadError).

(** src/msgs/certificates.rs:302-331: (length, header size) *)
Definition read_cert_size : M Reader ParseCertificateChainError (nat * nat) :=
  b0 <- map_err PCCRead get_byte ;;
  (if (b0 =? 0x30)%N then ret tt else pnc PAssert) ;;;
  n <- map_err PCCRead get_byte ;;
  if (N.land n 0x80 =? 0)%N then ret (N.to_nat n, 2)
  else if (n =? 0x81)%N then
    n <- map_err PCCRead get_byte ;;
    if (n <? 128)%N then err BadDerEncoding else ret (N.to_nat n, 3)
  else if (n =? 0x82)%N then
    high <- map_err PCCRead get_byte ;;
    low <- map_err PCCRead get_byte ;;
    let n := N.lor (N.shiftl high 8) low in
    if (n <? 256)%N then err BadDerEncoding else ret (N.to_nat n, 4)
  else err BadDerEncoding.

(** src/msgs/certificates.rs:264-283: [left] is MAX_CERT_CHAIN_DEPTH -
    num_intermediate_certs.  Returns the intermediates found and the leaf offset. *)
Fixpoint chain_loop (left : nat) (buf : list N) (acc : list (list N))
  : M Reader ParseCertificateChainError (list (list N) * nat) :=
  offset <- gets r_byte ;;
  '(len, header_size) <- read_cert_size ;;
  remaining <- gets r_remaining ;;
  if remaining <? len then err LengthMismatch
  else if len =? remaining then ret (acc, offset)
  else match left with
       | O => err MaxDepthExceeded
       | S l =>
         let fin := offset + len + header_size in
         (if fin <=? length buf then ret tt else pnc PIndex) ;;;
         map_err PCCRead (skip_ignored len) ;;;
         chain_loop l buf (acc ++ [slice buf offset fin])
       end.

(** src/msgs/certificates.rs:246-293 *)
Definition chain_parse_m (buf : list N) (digest_size : nat)
  : M Reader ParseCertificateChainError CertificateChain :=
  len <- map_err PCCRead get_u16 ;;
  if negb (N.to_nat len =? length buf) then err LengthMismatch
  else
  map_err PCCRead (skip_reserved 2) ;;;
  offset <- gets r_byte ;;
  map_err PCCRead (skip_ignored digest_size) ;;;
  (if offset + digest_size <=? length buf then ret tt else pnc PIndex) ;;;
  let root_hash := slice buf offset (offset + digest_size) in
  '(inter, leaf_offset) <- chain_loop MAX_CERT_CHAIN_DEPTH buf [] ;;
  (if leaf_offset <=? length buf then ret tt else pnc PIndex) ;;;
  ret (mkChain root_hash (skipn leaf_offset buf) inter).
Definition chain_parse (buf : list N) (digest_size : nat) : res ParseCertificateChainError CertificateChain :=
  run_parser (chain_parse_m buf digest_size) buf.

End Certificates.
