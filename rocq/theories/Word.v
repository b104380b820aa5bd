(** The length arithmetic of the crate with machine words: the same functions as in
    Encoding.v, Transcript.v, MsgCertificates.v, MsgCommon.v, MsgMeasurements.v and
    Crypto.v, but every [usize] addition and subtraction is that of a word of
    [word_bits] bits: it panics on overflow in a build with overflow checks and
    wraps around in one without. *)
From Verif Require Import Base Config Encoding MsgCommon MsgCertificates MsgMeasurements Transcript Crypto.

Class Word := { word_bits : N; word_large : (32 <= word_bits)%N }.

Section Word.
Context {cfg : Config} {wd : Word}.

Definition word_size : N := (2 ^ word_bits)%N.
(** [a + b] on usize *)
Definition wadd {E} (a b : nat) : res E nat :=
  if (N.of_nat (a + b) <? word_size)%N then Ok (a + b)
  else if overflow_checks then Panic POverflow else Ok (N.to_nat (N.of_nat (a + b) mod word_size)).
(** [a - b] on usize *)
Definition wsub {E} (a b : nat) : res E nat :=
  if b <=? a then Ok (a - b)
  else if overflow_checks then Panic POverflow else Ok (N.to_nat (word_size + N.of_nat a - N.of_nat b)).

(** * Writer *)
(** src/msgs/encoding.rs:93-95 *)
Definition w_remaining_w {E} (w : Writer) : res E nat := wsub (length (w_buf w)) (w_off w).
(** src/msgs/encoding.rs:24-32: [self.offset += 1] *)
Definition put_w (value : N) : M Writer BufferFullError nat := fun w =>
  if w_is_full w then (Err BufferFull, w)
  else if w_off w <? length (w_buf w) then
    let buf := upd (w_buf w) (w_off w) value in
    match wadd (w_off w) 1 with
    | Ok o => (Ok o, mkWriter buf o)
    | Err e => (Err e, mkWriter buf (w_off w))
    | Panic p => (Panic p, mkWriter buf (w_off w))
    end
  else (Panic PIndex, w).
(** src/msgs/encoding.rs:38-46, 49-55, 58-64 (a usize has [word_bits / 8] bytes), 67-73 *)
Definition put_reserved_w (num_bytes : nat) : M Writer BufferFullError nat :=
  repeatM num_bytes (put_w 0 ;;; ret tt) ;;; w_offset.
Definition put_u16_w (num : N) : M Writer BufferFullError nat :=
  iterM (le_bytes 2 num) (fun b => put_w b ;;; ret tt) ;;; w_offset.
Definition put_u24_w (num : N) : M Writer BufferFullError nat :=
  iterM (firstn 3 (le_bytes (N.to_nat (word_bits / 8)) num)) (fun b => put_w b ;;; ret tt) ;;; w_offset.
Definition put_u32_w (num : N) : M Writer BufferFullError nat :=
  iterM (le_bytes 4 num) (fun b => put_w b ;;; ret tt) ;;; w_offset.
(** src/msgs/encoding.rs:76-85 *)
Definition w_extend_w (bs : list N) : M Writer BufferFullError nat := fun w =>
  (remaining <- lift (w_remaining_w w) ;;
   if remaining <? length bs then err BufferFull
   else
     fin <- lift (wadd (w_off w) (length bs)) ;;
     fun w => if (w_off w <=? fin) && (fin <=? length (w_buf w)) then
       (Ok fin, mkWriter (firstn (w_off w) (w_buf w) ++ bs ++ skipn fin (w_buf w)) fin)
     else (Panic PIndex, w)) w.

(** * Reader *)
(** src/msgs/encoding.rs:298-300 *)
Definition r_remaining_w {E} (r : Reader) : res E nat := wsub (length (r_buf r)) (r_byte r).
Definition r_adv_w (n : nat) : M Reader ReadError unit := fun r =>
  match wadd (r_byte r) n with
  | Ok o => (Ok tt, mkReader (r_buf r) o (r_bit r))
  | Err e => (Err e, r)
  | Panic p => (Panic p, r)
  end.
(** src/msgs/encoding.rs:135-145 *)
Definition get_byte_w : M Reader ReadError N := fun r =>
  if negb (r_is_aligned r) then (Err Unaligned, r)
  else if r_is_empty r then (Err BufferEmpty, r)
  else (b <- lift (r_index r (r_byte r)) ;; r_adv_w 1 ;;; ret b) r.
(** src/msgs/encoding.rs:150-158, 162-167 *)
Definition skip_reserved_w (num_bytes : nat) : M Reader ReadError unit :=
  repeatM num_bytes
    (b <- get_byte_w ;; if negb (b =? 0)%N then err ReservedByteNotZero else ret tt).
Definition skip_ignored_w (num_bytes : nat) : M Reader ReadError unit :=
  repeatM num_bytes (get_byte_w ;;; ret tt).
(** src/msgs/encoding.rs:173-210: the only usize computation is
    [self.byte_offset + 1], made when the bits end in or at the end of the byte;
    the rest is [get_bits]. *)
Definition get_bits_w (count : nat) : M Reader ReadError N := fun r =>
  if r_is_empty r then (Err BufferEmpty, r)
  else if 7 <? count then (Err TooManyBits, r)
  else if 8 <=? r_bit r + count then
    match @wadd ReadError (r_byte r) 1 with
    | Ok o => if o =? r_byte r + 1 then get_bits count r else (Panic PIndex, r)
    | Err e => (Err e, r)
    | Panic p => (Panic p, r)
    end
  else get_bits count r.
Definition get_bit_w : M Reader ReadError N := get_bits_w 1.
(** [&self.buf[pos..pos + n]] *)
Definition r_slice_w {E} (r : Reader) (pos n : nat) : res E (list N) :=
  rbind (wadd pos n) (fun fin =>
  if (pos <=? fin) && (fin <=? length (r_buf r)) then Ok (slice (r_buf r) pos fin) else Panic PIndex).
(** src/msgs/encoding.rs:220-233, 277-290 *)
Definition get_word_w (n : nat) : M Reader ReadError N := fun r =>
  if negb (r_is_aligned r) then (Err Unaligned, r)
  else
    (remaining <- lift (r_remaining_w r) ;;
     if remaining <? n then err BufferEmpty
     else bs <- lift (r_slice_w r (r_byte r) n) ;; r_adv_w n ;;; ret (le_val bs)) r.
Definition get_u16_w : M Reader ReadError N := get_word_w 2.
Definition get_u32_w : M Reader ReadError N := get_word_w 4.
(** src/msgs/encoding.rs:240-257 *)
Definition get_slice_w (size dest_len : nat) : M Reader ReadError (list N) := fun r =>
  if negb (r_is_aligned r) then (Err Unaligned, r)
  else
    (remaining <- lift (r_remaining_w r) ;;
     if remaining <? size then err BufferEmpty
     else
       start <- gets r_byte ;;
       r_adv_w size ;;;
       (if dest_len <? size then pnc PIndex
        else fun r => (if (start <=? r_byte r) && (r_byte r <=? length (r_buf r))
                       then Ok (slice (r_buf r) start (r_byte r)) else Panic PIndex, r))) r.
(** src/msgs/encoding.rs:262-272: [usize::try_from(val).unwrap()] *)
Definition get_u24_w : M Reader ReadError N := fun r =>
  if negb (r_is_aligned r) then (Err Unaligned, r)
  else (b0 <- get_byte_w ;;
        b1 <- get_byte_w ;;
        b2 <- get_byte_w ;;
        let val := N.lor (N.lor b0 (N.shiftl b1 8)) (N.shiftl b2 16) in
        if (val <? word_size)%N then ret val else pnc PUnwrap) r.

(** * Transcript, src/transcript.rs:26-35 *)
Definition t_extend_w (bs : list N) : M Transcript BufferFullError unit := fun t =>
  match @wadd BufferFullError (t_offset t) (length bs) with
  | Ok fin =>
    if length (t_buf t) <? fin then (Err BufferFull, t)
    else if (t_offset t <=? fin) && (fin - t_offset t =? length bs) then
      (Ok tt, mkTranscript (firstn (t_offset t) (t_buf t) ++ bs ++ skipn fin (t_buf t)) fin)
    else (Panic PIndex, t)
  | Err e => (Err e, t)
  | Panic p => (Panic p, t)
  end.

(** * Certificate chains *)
(** src/msgs/certificates.rs:225-229, added from left to right *)
Definition chain_length_w {E} (c : CertificateChain) : res E nat :=
  rbind (wadd 4 (length (cc_root_hash c))) (fun a =>
  rbind (fold_left (fun acc i => rbind acc (fun x => wadd x (length i))) (cc_intermediates c) (Ok 0)) (fun b =>
  rbind (wadd a b) (fun ab => wadd ab (length (cc_leaf_cert c))))).
(** src/msgs/certificates.rs:221-241 *)
Definition chain_write_w (c : CertificateChain) : M Writer WriteCertificateChainError nat :=
  n <- lift (chain_length_w c) ;;
  let len := N.of_nat n in
  if (65535 <? len)%N then err MaxSizeExceeded
  else
  map_err wcc_from (put_u16_w (len mod 65536)) ;;;
  map_err wcc_from (put_reserved_w 2) ;;;
  map_err wcc_from (w_extend_w (cc_root_hash c)) ;;;
  iterM (cc_intermediates c) (fun i => map_err wcc_from (w_extend_w i) ;;; ret tt) ;;;
  map_err wcc_from (w_extend_w (cc_leaf_cert c)) ;;;
  w_offset.
(** src/msgs/certificates.rs:302-331 *)
Definition read_cert_size_w : M Reader ParseCertificateChainError (nat * nat) :=
  b0 <- map_err PCCRead get_byte_w ;;
  (if (b0 =? 0x30)%N then ret tt else pnc PAssert) ;;;
  n <- map_err PCCRead get_byte_w ;;
  if (N.land n 0x80 =? 0)%N then ret (N.to_nat n, 2)
  else if (n =? 0x81)%N then
    n <- map_err PCCRead get_byte_w ;;
    if (n <? 128)%N then err BadDerEncoding else ret (N.to_nat n, 3)
  else if (n =? 0x82)%N then
    high <- map_err PCCRead get_byte_w ;;
    low <- map_err PCCRead get_byte_w ;;
    let n := N.lor (N.shiftl high 8) low in
    if (n <? 256)%N then err BadDerEncoding else ret (N.to_nat n, 4)
  else err BadDerEncoding.
(** src/msgs/certificates.rs:264-283 *)
Fixpoint chain_loop_w (left : nat) (buf : list N) (acc : list (list N))
  : M Reader ParseCertificateChainError (list (list N) * nat) :=
  offset <- gets r_byte ;;
  '(len, header_size) <- read_cert_size_w ;;
  r <- gets (fun r => r) ;;
  remaining <- lift (r_remaining_w r) ;;
  if remaining <? len then err LengthMismatch
  else if len =? remaining then ret (acc, offset)
  else match left with
       | O => err MaxDepthExceeded
       | S l =>
         a <- lift (wadd offset len) ;;
         fin <- lift (wadd a header_size) ;;
         (if (offset <=? fin) && (fin <=? length buf) then ret tt else pnc PIndex) ;;;
         map_err PCCRead (skip_ignored_w len) ;;;
         chain_loop_w l buf (acc ++ [slice buf offset fin])
       end.
(** src/msgs/certificates.rs:246-293 *)
Definition chain_parse_mw (buf : list N) (digest_size : nat)
  : M Reader ParseCertificateChainError CertificateChain :=
  len <- map_err PCCRead get_u16_w ;;
  if negb (N.to_nat len =? length buf) then err LengthMismatch
  else
  map_err PCCRead (skip_reserved_w 2) ;;;
  offset <- gets r_byte ;;
  map_err PCCRead (skip_ignored_w digest_size) ;;;
  fin <- lift (wadd offset digest_size) ;;
  (if (offset <=? fin) && (fin <=? length buf) then ret tt else pnc PIndex) ;;;
  let root_hash := slice buf offset fin in
  '(inter, leaf_offset) <- chain_loop_w MAX_CERT_CHAIN_DEPTH buf [] ;;
  (if leaf_offset <=? length buf then ret tt else pnc PIndex) ;;;
  ret (mkChain root_hash (skipn leaf_offset buf) inter).
Definition chain_parse_w (buf : list N) (digest_size : nat) : res ParseCertificateChainError CertificateChain :=
  run_parser (chain_parse_mw buf digest_size) buf.

(** * Sizes *)
(** src/msgs/common.rs:149-154 *)
Definition oe_serialized_size_w {E} (e : OpaqueElement) : res E nat :=
  rbind (wadd 4 (N.to_nat (vendor_id_len (oe_registry e)))) (fun a =>
  rbind (wadd a (length (oe_data e))) (fun raw => wadd raw (oe_padding raw))).
(** src/msgs/common.rs:40-44 *)
Definition od_serialized_size_w {E} (d : OpaqueData) : res E nat :=
  rbind (fold_left (fun acc e => rbind acc (fun x => rbind (oe_serialized_size_w e) (wadd x))) d (Ok 0)) (fun n => wadd 4 n).
(** src/msgs/measurements.rs:475-477, 546-548 *)
Definition mb_serialized_size_w {E} (b : MeasurementBlock) : res E nat :=
  rbind (wadd 3 (mv_len (dm_value (mb_measurement b)))) (fun n => wadd 4 n).
(** src/msgs/measurements.rs:642-650 *)
Definition mbs_serialized_size_w {E} (b : MeasurementBlocks) : res E nat :=
  if mbs_len b <=? length (mbs_blocks b) then
    fold_left (fun acc o => rbind acc (fun a =>
                 match o with Some x => rbind (mb_serialized_size_w x) (wadd a) | None => Panic PUnwrap end))
              (firstn (mbs_len b) (mbs_blocks b)) (Ok 0)
  else Panic PIndex.
(** src/crypto/pki.rs:83-84, with 99-104 *)
Definition get_start_and_length_w {E} (i : list N) : res E (nat * nat) :=
  match first_nonzero i with
  | None => Panic PUnwrap
  | Some start =>
    rbind (pad_of (skipn start i)) (fun pad =>
    rbind (wsub (length i) start) (fun a => rbind (wadd a pad) (fun n => Ok (start, n))))
  end.
Definition sig_len_w {E} (r_len s_len : nat) : res E nat :=
  rbind (wadd 2 r_len) (fun a => rbind (wadd a s_len) (fun a =>
  rbind (wadd a (der_length r_len)) (fun a => wadd a (der_length s_len)))).

End Word.
