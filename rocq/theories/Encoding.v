(** Model of src/msgs/encoding.rs: Writer and Reader. *)
From Verif Require Import Base Config.

Section Encoding.
Context {cfg : Config}.

(** src/msgs/encoding.rs:7-8 *)
Inductive BufferFullError := BufferFull.

(** src/msgs/encoding.rs:11-14.  The borrowed [&mut [u8]] is held by value. *)
Record Writer := mkWriter { w_buf : list N; w_off : nat }.

(** src/msgs/encoding.rs:17-19 *)
Definition writer_new (buf : list N) : Writer := mkWriter buf 0.

(** src/msgs/encoding.rs:88-90 *)
Definition w_is_full (w : Writer) : bool := w_off w =? length (w_buf w).

(** src/msgs/encoding.rs:93-95.  usize subtraction; the offset never exceeds
    the length (proved), so truncated subtraction is exact. *)
Definition w_remaining (w : Writer) : nat := length (w_buf w) - w_off w.

(** src/msgs/encoding.rs:98-100 *)
Definition w_offset {E} : M Writer E nat := gets w_off.

(** src/msgs/encoding.rs:24-32 *)
Definition put (value : N) : M Writer BufferFullError nat := fun w =>
  if w_is_full w then (Err BufferFull, w)
  else if w_off w <? length (w_buf w) then
    let w' := mkWriter (upd (w_buf w) (w_off w) value) (w_off w + 1) in
    (Ok (w_off w'), w')
  else (Panic PIndex, w).

(** src/msgs/encoding.rs:38-46 *)
Definition put_reserved (num_bytes : nat) : M Writer BufferFullError nat :=
  repeatM num_bytes (put 0 ;;; ret tt) ;;; w_offset.

(** src/msgs/encoding.rs:49-55 *)
Definition put_u16 (num : N) : M Writer BufferFullError nat :=
  iterM (le_bytes 2 num) (fun b => put b ;;; ret tt) ;;; w_offset.

(** src/msgs/encoding.rs:58-64: the first three of the eight little-endian
    bytes of a usize. *)
Definition put_u24 (num : N) : M Writer BufferFullError nat :=
  iterM (firstn 3 (le_bytes 8 num)) (fun b => put b ;;; ret tt) ;;; w_offset.

(** src/msgs/encoding.rs:67-73 *)
Definition put_u32 (num : N) : M Writer BufferFullError nat :=
  iterM (le_bytes 4 num) (fun b => put b ;;; ret tt) ;;; w_offset.

(** src/msgs/encoding.rs:76-85.  [copy_from_slice] into [self.buf[offset..end]]. *)
Definition w_extend (bs : list N) : M Writer BufferFullError nat := fun w =>
  if w_remaining w <? length bs then (Err BufferFull, w)
  else
    let fin := w_off w + length bs in
    if fin <=? length (w_buf w) then
      (Ok fin, mkWriter (firstn (w_off w) (w_buf w) ++ bs ++ skipn fin (w_buf w)) fin)
    else (Panic PIndex, w).

(** src/msgs/encoding.rs:104-120 *)
Inductive ReadError :=
| BufferEmpty | ReservedByteNotZero | Unaligned | TooManyBits | TypeConversionFailed.

(** src/msgs/encoding.rs:123-127 *)
Record Reader := mkReader { r_buf : list N; r_byte : nat; r_bit : nat }.

(** src/msgs/encoding.rs:130-132 *)
Definition reader_new (buf : list N) : Reader := mkReader buf 0 0.

(** src/msgs/encoding.rs:298-300.  Truncated subtraction: exact under the
    cursor invariant proved in C05. *)
Definition r_remaining (r : Reader) : nat := length (r_buf r) - r_byte r.
(** src/msgs/encoding.rs:303-305 *)
Definition r_is_empty (r : Reader) : bool := length (r_buf r) =? r_byte r.
(** src/msgs/encoding.rs:308-310 *)
Definition r_is_aligned (r : Reader) : bool := r_bit r =? 0.

(** [self.buf[i]]: out of bounds is a panic. *)
Definition r_index {E} (r : Reader) (i : nat) : res E N :=
  match nth_error (r_buf r) i with Some b => Ok b | None => Panic PIndex end.

Definition r_adv (r : Reader) (n : nat) : Reader := mkReader (r_buf r) (r_byte r + n) (r_bit r).

(** src/msgs/encoding.rs:135-145 *)
Definition get_byte : M Reader ReadError N := fun r =>
  if negb (r_is_aligned r) then (Err Unaligned, r)
  else if r_is_empty r then (Err BufferEmpty, r)
  else match r_index r (r_byte r) with
       | Ok b => (Ok b, r_adv r 1)
       | Err e => (Err e, r)
       | Panic p => (Panic p, r)
       end.

(** src/msgs/encoding.rs:150-158 *)
Definition skip_reserved (num_bytes : nat) : M Reader ReadError unit :=
  repeatM num_bytes
    (b <- get_byte ;; if negb (b =? 0)%N then err ReservedByteNotZero else ret tt).

(** src/msgs/encoding.rs:162-167 *)
Definition skip_ignored (num_bytes : nat) : M Reader ReadError unit :=
  repeatM num_bytes (get_byte ;;; ret tt).

(** src/msgs/encoding.rs:173-210.  [count] and the bit offset are u8; their sum
    is below 256 whenever the branch is taken, so nat addition is exact. *)
Definition get_bits (count : nat) : M Reader ReadError N := fun r =>
  if r_is_empty r then (Err BufferEmpty, r)
  else if 7 <? count then (Err TooManyBits, r)
  else
    let new_bit_offset := r_bit r + count in
    if 8 <=? new_bit_offset then
      let new_byte_offset := r_byte r + 1 in
      let new_bit_offset := new_bit_offset - 8 in
      if (new_byte_offset =? length (r_buf r)) && negb (new_bit_offset =? 0)
      then (Err BufferEmpty, r)
      else
        let value :=
          rbind (r_index r (r_byte r)) (fun b0 =>
          rbind (shr8 overflow_checks b0 (r_bit r)) (fun b =>
          if negb (new_bit_offset =? 0) then
            rbind (sub8 overflow_checks 8 (r_bit r)) (fun low_bit =>
            rbind (sub8 overflow_checks 8 new_bit_offset) (fun trailing_zeros =>
            rbind (sub8 overflow_checks trailing_zeros low_bit) (fun right_shift =>
            rbind (r_index r new_byte_offset) (fun b1 =>
            rbind (shl8 overflow_checks b1 trailing_zeros) (fun t =>
            rbind (shr8 overflow_checks t right_shift) (fun hi =>
            Ok (N.lor b hi)))))))
          else Ok b)) in
        match value with
        | Ok b => (Ok b, mkReader (r_buf r) new_byte_offset new_bit_offset)
        | Err e => (Err e, r)
        | Panic p => (Panic p, r)
        end
    else
      let high := r_bit r + count in
      let low := r_bit r in
      let value :=
        rbind (r_index r (r_byte r)) (fun b0 =>
        rbind (sub8 overflow_checks 8 high) (fun k1 =>
        rbind (shl8 overflow_checks b0 k1) (fun t =>
        rbind (sub8 overflow_checks high low) (fun d =>
        rbind (sub8 overflow_checks 8 d) (fun k2 =>
        shr8 overflow_checks t k2))))) in
      match value with
      | Ok b => (Ok b, mkReader (r_buf r) (r_byte r) high)
      | Err e => (Err e, r)
      | Panic p => (Panic p, r)
      end.

(** src/msgs/encoding.rs:213-215 *)
Definition get_bit : M Reader ReadError N := get_bits 1.

(** [&self.buf[pos..pos + n]]: panics when out of bounds. *)
Definition r_slice {E} (r : Reader) (pos n : nat) : res E (list N) :=
  if pos + n <=? length (r_buf r) then Ok (slice (r_buf r) pos (pos + n)) else Panic PIndex.

(** src/msgs/encoding.rs:220-233 *)
Definition get_u16 : M Reader ReadError N := fun r =>
  if negb (r_is_aligned r) then (Err Unaligned, r)
  else if r_remaining r <? 2 then (Err BufferEmpty, r)
  else match r_slice r (r_byte r) 2 with
       | Ok bs => (Ok (le_val bs), r_adv r 2)
       | Err e => (Err e, r)
       | Panic p => (Panic p, r)
       end.

(** src/msgs/encoding.rs:240-257.  [dest_len] is the length of the destination
    slice; the bytes copied are returned.  The destination index panics after
    the cursor has been advanced, as in the code. *)
Definition get_slice (size dest_len : nat) : M Reader ReadError (list N) := fun r =>
  if negb (r_is_aligned r) then (Err Unaligned, r)
  else if r_remaining r <? size then (Err BufferEmpty, r)
  else
    let r' := r_adv r size in
    if dest_len <? size then (Panic PIndex, r')
    else match r_slice r (r_byte r) size with
         | Ok bs => (Ok bs, r')
         | Err e => (Err e, r')
         | Panic p => (Panic p, r')
         end.

(** src/msgs/encoding.rs:262-272 *)
Definition get_u24 : M Reader ReadError N := fun r =>
  if negb (r_is_aligned r) then (Err Unaligned, r)
  else (b0 <- get_byte ;;
        b1 <- get_byte ;;
        b2 <- get_byte ;;
        ret (N.lor (N.lor b0 (N.shiftl b1 8)) (N.shiftl b2 16))) r.

(** src/msgs/encoding.rs:277-290 *)
Definition get_u32 : M Reader ReadError N := fun r =>
  if negb (r_is_aligned r) then (Err Unaligned, r)
  else if r_remaining r <? 4 then (Err BufferEmpty, r)
  else match r_slice r (r_byte r) 4 with
       | Ok bs => (Ok (le_val bs), r_adv r 4)
       | Err e => (Err e, r)
       | Panic p => (Panic p, r)
       end.

End Encoding.
