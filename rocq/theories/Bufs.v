(** Storage-level model of the fixed-capacity buffers whose visible contents the
    rest of the model uses directly (C48). *)
From Verif Require Import Base Config Encoding MsgCommon MsgCertificates MsgMeasurements.

Section Bufs.
Context {cfg : Config}.

(** DigestBuf (src/msgs/common.rs:357-360), SignatureBuf (:440-443) and
    BitStream (src/msgs/measurements.rs:313-316): a used size and an array. *)
Record SizedBuf := mkSB { sb_size : nat; sb_buf : list N }.

(** src/msgs/common.rs:363-365, 446-448; [cap] is MAX_DIGEST_SIZE,
    MAX_SIGNATURE_SIZE or MAX_MEASUREMENT_SIZE. *)
Definition sb_new (cap size : nat) : SizedBuf := mkSB size (repeat 0%N cap).

(** src/msgs/common.rs:381-385, 464-468, src/msgs/measurements.rs:337-339 *)
Definition sb_as_ref (b : SizedBuf) : list N := firstn (sb_size b) (sb_buf b).

(** src/msgs/common.rs:393-401, 476-484: [None] is the TooLarge error. *)
Definition sb_try_from (cap : nat) (data : list N) : option SizedBuf :=
  if length data <=? cap then
    let b := sb_new cap (length data) in
    Some (mkSB (sb_size b) (data ++ skipn (length data) (sb_buf b)))
  else None.

(** src/msgs/common.rs:367-374, 450-457; the destination is as_mut(), of
    length [size]. *)
Definition sb_read (cap size : nat) : M Reader ReadError SizedBuf :=
  bs <- get_slice size size ;;
  ret (mkSB size (bs ++ skipn size (repeat 0%N cap))).

(** src/msgs/common.rs:405-409, 488-492, src/msgs/measurements.rs:359-363 *)
Definition sb_eqb (a b : SizedBuf) : bool :=
  (sb_size a =? sb_size b) && list_eqb (sb_as_ref a) (sb_as_ref b).

(** src/msgs/measurements.rs:331-335: [buf[..data.len()]] panics when the data
    is longer than the array. *)
Definition bs_new {E} (data : list N) : res E SizedBuf :=
  if length data <=? MAX_MEASUREMENT_SIZE
  then Ok (mkSB (length data) (data ++ skipn (length data) (repeat 0%N MAX_MEASUREMENT_SIZE)))
  else Panic PIndex.

(** src/msgs/measurements.rs:345-356: the destination is the whole array. *)
Definition bs_read (len : nat) : M Reader ParseBitStreamError SizedBuf :=
  if MAX_MEASUREMENT_SIZE <? len then err PBSMaxSizeExceeded
  else
  bs <- map_err PBSRead (get_slice len MAX_MEASUREMENT_SIZE) ;;
  ret (mkSB len (bs ++ skipn len (repeat 0%N MAX_MEASUREMENT_SIZE))).

(** src/msgs/common.rs:114-121 *)
Record OpaqueElementS := mkOES {
  oes_registry : VendorRegistryId; oes_vendor : VendorId; oes_len : nat; oes_data : list N
}.
Definition oes_view (e : OpaqueElementS) : OpaqueElement :=
  mkOE (oes_registry e) (oes_vendor e) (firstn (oes_len e) (oes_data e)).

(** derived PartialEq of the two enums *)
Definition registry_eqb (a b : VendorRegistryId) : bool := (registry_to_u8 a =? registry_to_u8 b)%N.
Definition vendor_eqb (a b : VendorId) : bool :=
  match a, b with
  | VEmpty, VEmpty => true
  | VU16 x, VU16 y => (x =? y)%N
  | VU32 x, VU32 y => (x =? y)%N
  | _, _ => false
  end.

(** src/msgs/common.rs:125-133 *)
Definition oes_eqb (a b : OpaqueElementS) : bool :=
  registry_eqb (oes_registry a) (oes_registry b) && vendor_eqb (oes_vendor a) (oes_vendor b)
  && (oes_len a =? oes_len b)
  && list_eqb (firstn (oes_len a) (oes_data a)) (firstn (oes_len b) (oes_data b)).

(** src/msgs/certificates.rs:122-132 *)
Record ChainS := mkChainS {
  cs_root : list N; cs_leaf : list N; cs_num : nat; cs_arr : list (list N)
}.
Definition cs_intermediates (c : ChainS) : list (list N) := firstn (cs_num c) (cs_arr c).
Definition cs_view (c : ChainS) : CertificateChain := mkChain (cs_root c) (cs_leaf c) (cs_intermediates c).

(** src/msgs/certificates.rs:183-196 *)
Definition cs_new (root leaf : list N) : ChainS := mkChainS root leaf 0 (repeat leaf MAX_CERT_CHAIN_DEPTH).
(** src/msgs/certificates.rs:208-218 *)
Definition cs_append (c : ChainS) (cert : list N) : res MaxCertChainDepthExceededError ChainS :=
  if cs_num c =? MAX_CERT_CHAIN_DEPTH then Err MaxCertChainDepthExceeded
  else if cs_num c <? length (cs_arr c)
  then Ok (mkChainS (cs_root c) (cs_leaf c) (cs_num c + 1) (upd (cs_arr c) (cs_num c) cert))
  else Panic PIndex.

(** slice equality of slices of slices *)
Fixpoint slices_eqb (a b : list (list N)) : bool :=
  match a, b with
  | [], [] => true
  | x :: a', y :: b' => list_eqb x y && slices_eqb a' b'
  | _, _ => false
  end.
(** src/msgs/certificates.rs:136-142 *)
Definition cs_eqb (a b : ChainS) : bool :=
  list_eqb (cs_root a) (cs_root b) && list_eqb (cs_leaf a) (cs_leaf b)
  && slices_eqb (cs_intermediates a) (cs_intermediates b).

End Bufs.
