(** Model of src/msgs/digest.rs. *)
From Verif Require Import Base Config Encoding MsgCommon.

(** src/msgs/digest.rs:25-27, 57-59 *)
Definition GetDigests_id := mkMsgId 0x11 0x81.
Definition Digests_id := mkMsgId 0x11 0x01.

Section Digest.
Context {cfg : Config}.

(** src/msgs/digest.rs:31-33 *)
Definition get_digests_write_body : M Writer BufferFullError nat := put_reserved 2.
(** src/msgs/digest.rs:37-41 *)
Definition get_digests_parse : M Reader ReadError unit := skip_reserved 2 ;;; ret tt.
Definition get_digests_parse_body (buf : list N) := run_parser get_digests_parse buf.

(** src/msgs/digest.rs:46-52: an array of NUM_SLOTS optional digests. *)
Record Digests := mkDigests { d_slot_mask : N; d_digests : list (option (list N)) }.

(** [bits ^= 1 << k] on u8 (src/msgs/digest.rs:96, 112).  The shift overflows
    only for k >= 8, which needs NUM_SLOTS > 8 (refused by build.rs). *)
Definition xor_bit {E} (bits : N) (k : nat) : res E N :=
  rmap (fun b => N.lxor bits b) (shl8 overflow_checks 1 k).

(** src/msgs/digest.rs:90-98.  Each iteration clears one of the 8 bits, so 8
    iterations suffice when NUM_SLOTS <= 8; running out of fuel is the value
    [Panic PUnreachable] (proved unreachable for NUM_SLOTS <= 8). *)
Fixpoint read_digests_loop (fuel : nat) (size : nat) (bits : N) (digests : list (option (list N)))
  : M Reader ReadError (list (option (list N))) :=
  let k := trailing_zeros 8 bits in
  if k <? NUM_SLOTS then
    match fuel with
    | O => pnc PUnreachable
    | S f =>
      digest <- get_slice size size ;;
      (if k <? length digests then ret tt else pnc PIndex) ;;;
      bits' <- lift (xor_bit bits k) ;;
      read_digests_loop f size bits' (upd digests k (Some digest))
    end
  else ret digests.

(** src/msgs/digest.rs:72-100 *)
Definition digests_parse (size : nat) : M Reader ReadError Digests :=
  skip_reserved 1 ;;;
  slot_mask <- get_byte ;;
  digests <- read_digests_loop 8 size slot_mask (repeat None NUM_SLOTS) ;;
  ret (mkDigests slot_mask digests).
Definition digests_parse_body (size : nat) (buf : list N) := run_parser (digests_parse size) buf.

(** src/msgs/digest.rs:106-116 *)
Fixpoint write_digests_loop (fuel : nat) (bits : N) (digests : list (option (list N))) (offset : nat)
  : M Writer BufferFullError nat :=
  let k := trailing_zeros 8 bits in
  if k <? NUM_SLOTS then
    match fuel with
    | O => pnc PUnreachable
    | S f =>
      d <- lift (match nth_error digests k with
                 | None => Panic PIndex
                 | Some None => Panic PUnwrap
                 | Some (Some d) => Ok d
                 end) ;;
      offset <- w_extend d ;;
      bits' <- lift (xor_bit bits k) ;;
      write_digests_loop f bits' digests offset
    end
  else ret offset.
Definition write_digests (d : Digests) : M Writer BufferFullError nat :=
  offset <- w_offset ;;
  write_digests_loop 8 (d_slot_mask d) (d_digests d) offset.

(** src/msgs/digest.rs:63-67 *)
Definition digests_write_body (d : Digests) : M Writer BufferFullError nat :=
  put_reserved 1 ;;; put (d_slot_mask d) ;;; write_digests d.

End Digest.
