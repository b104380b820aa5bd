(** Model of src/msgs/mod.rs (the [Msg] trait) and src/msgs/common.rs. *)
From Verif Require Import Base Config Encoding.

(** The constants each message type defines (src/msgs/mod.rs:45-52). *)
Record MsgId := mkMsgId { SPDM_VERSION : N; SPDM_CODE : N }.

(** src/msgs/version.rs:17-19, 83-85 *)
Definition GetVersion_id := mkMsgId 0x10 0x84.
Definition Version_id := mkMsgId 0x10 0x04.
(** src/msgs/capabilities.rs:84-86, 192-194 *)
Definition GetCapabilities_id := mkMsgId 0x11 0xE1.
Definition Capabilities_id := mkMsgId 0x11 0x61.
(** src/msgs/algorithms.rs:430-432, 607-609 *)
Definition NegotiateAlgorithms_id := mkMsgId 0x11 0xE3.
Definition Algorithms_id := mkMsgId 0x11 0x63.

(** src/msgs/mod.rs:39-40 *)
Inductive ParseHeaderError := ParseHeaderErr.

Section MsgTrait.
Context {cfg : Config}.

(** src/msgs/mod.rs:68-79 *)
Definition parse_header (m : MsgId) (buf : list N) : res ParseHeaderError bool :=
  if negb (2 <? length buf) then Panic PAssert
  else match nth_error buf 1, nth_error buf 0 with
       | Some b1, Some b0 =>
         if negb (b1 =? SPDM_CODE m)%N then Ok false
         else if (b0 =? SPDM_VERSION m)%N then Ok true
         else Err ParseHeaderErr
       | _, _ => Panic PIndex
       end.

(** src/msgs/mod.rs:97-100 *)
Definition write_header (m : MsgId) : M Writer BufferFullError nat :=
  put (SPDM_VERSION m) ;;; put (SPDM_CODE m).

(** src/msgs/mod.rs:83-87: the new contents of [buf] are returned with the
    result. [from_full] is the [From<BufferFullError>] of the message's write
    error type. *)
Definition write_msg {E} (m : MsgId) (from_full : BufferFullError -> E)
           (write_body : M Writer E nat) (buf : list N) : res E nat * list N :=
  let '(r, w) := (map_err from_full (write_header m) ;;; write_body) (writer_new buf) in
  (r, w_buf w).

(** Run a parser on a fresh reader (the [Reader::new(buf)] at the top of every
    [parse_body]). *)
Definition run_parser {E A} (m : M Reader E A) (buf : list N) : res E A := fst (m (reader_new buf)).

(* ------------------------------------------------------------------ *)
(** * src/msgs/common.rs *)

(** src/msgs/common.rs:281-291 *)
Inductive VendorRegistryId := Dmtf | Tcg | Usb | PciSig | Iana | HDBaseT | Mipi | Cxl | Jedec.

(** [as u8], src/msgs/common.rs:279-291 *)
Definition registry_to_u8 (v : VendorRegistryId) : N :=
  match v with
  | Dmtf => 0 | Tcg => 1 | Usb => 2 | PciSig => 3 | Iana => 4
  | HDBaseT => 5 | Mipi => 6 | Cxl => 7 | Jedec => 8
  end.

(** src/msgs/common.rs:293-312 *)
Definition registry_of_u8 (b : N) : option VendorRegistryId :=
  match b with
  | 0 => Some Dmtf | 1 => Some Tcg | 2 => Some Usb | 3 => Some PciSig | 4 => Some Iana
  | 5 => Some HDBaseT | 6 => Some Mipi | 7 => Some Cxl | 8 => Some Jedec
  | _ => None
  end%N.

(** src/msgs/common.rs:314-328 *)
Definition vendor_id_len (v : VendorRegistryId) : N :=
  match v with
  | Dmtf => 0 | Tcg => 2 | Usb => 2 | PciSig => 2 | Iana => 4
  | HDBaseT => 4 | Mipi => 2 | Cxl => 2 | Jedec => 2
  end.

(** src/msgs/common.rs:231-235 *)
Inductive VendorId := VEmpty | VU16 (v : N) | VU32 (v : N).

(** src/msgs/common.rs:216-221 *)
Inductive ParseVendorIdError := PVIRead (e : ReadError) | PVIInvalidLen.

(** src/msgs/common.rs:239-257 *)
Definition vendor_id_write (v : VendorId) : M Writer BufferFullError N :=
  match v with
  | VEmpty => put 0 ;;; ret 0%N
  | VU16 x => put 2 ;;; put_u16 x ;;; ret 2%N
  | VU32 x => put 4 ;;; put_u32 x ;;; ret 4%N
  end.

(** src/msgs/common.rs:259-272 *)
Definition vendor_id_read (len : N) : M Reader ParseVendorIdError VendorId :=
  match len with
  | 0%N => ret VEmpty
  | 2%N => v <- map_err PVIRead get_u16 ;; ret (VU16 v)
  | 4%N => v <- map_err PVIRead get_u32 ;; ret (VU32 v)
  | _ => err PVIInvalidLen
  end.

(** src/msgs/common.rs:81-89 *)
Inductive ParseOpaqueElementError :=
| POERead (e : ReadError) | POEInvalidVendorId | POEParseVendorRegistryId
| POEParseVendorId (e : ParseVendorIdError).

(** src/msgs/common.rs:67-73 *)
Inductive WriteOpaqueElementError := WOEBufferFull | WOEInvalidVendorId.
(** src/msgs/common.rs:75-79 *)
Definition woe_from (e : BufferFullError) : WriteOpaqueElementError := WOEBufferFull.

(** src/msgs/common.rs:12-16 *)
Inductive ParseOpaqueDataError :=
| PODRead (e : ReadError) | PODParseOpaqueElement (e : ParseOpaqueElementError).

(** src/msgs/common.rs:113-121.  [oe_data] is the visible part
    [data[..data_len]] of the storage; the fields are private and every
    constructor (Default, read) keeps data_len within the storage, see Bufs.v. *)
Record OpaqueElement := mkOE { oe_registry : VendorRegistryId; oe_vendor : VendorId; oe_data : list N }.

(** src/msgs/common.rs:137-146 *)
Definition oe_default : OpaqueElement := mkOE Dmtf VEmpty [].

(** src/msgs/common.rs:157-164 *)
Definition oe_padding (raw : nat) : nat :=
  let remainder := raw mod 4 in if remainder =? 0 then 0 else 4 - remainder.

(** src/msgs/common.rs:149-154 *)
Definition oe_serialized_size (e : OpaqueElement) : nat :=
  let raw := 4 + N.to_nat (vendor_id_len (oe_registry e)) + length (oe_data e) in
  raw + oe_padding raw.

(** src/msgs/common.rs:204-213 *)
Definition ensure_vendor_id_len (len : N) (reg : VendorRegistryId) : res ParseOpaqueElementError unit :=
  if (len =? vendor_id_len reg)%N then Ok tt else Err POEInvalidVendorId.

(** src/msgs/common.rs:166-183; data_len is the u16 length of the visible data. *)
Definition oe_write (e : OpaqueElement) : M Writer WriteOpaqueElementError unit :=
  map_err woe_from (put (registry_to_u8 (oe_registry e))) ;;;
  vendor_len <- map_err woe_from (vendor_id_write (oe_vendor e)) ;;
  map_err (fun _ => WOEInvalidVendorId) (lift (ensure_vendor_id_len vendor_len (oe_registry e))) ;;;
  map_err woe_from (put_u16 (N.of_nat (length (oe_data e)))) ;;;
  map_err woe_from (w_extend (oe_data e)) ;;;
  map_err woe_from
    (put_reserved (oe_padding (4 + N.to_nat vendor_len + length (oe_data e)))) ;;;
  ret tt.

(** src/msgs/common.rs:185-199 *)
Definition oe_read : M Reader ParseOpaqueElementError OpaqueElement :=
  b <- map_err POERead get_byte ;;
  registry_id <- lift (of_option POEParseVendorRegistryId (registry_of_u8 b)) ;;
  vendor_id_len <- map_err POERead get_byte ;;
  lift (ensure_vendor_id_len vendor_id_len registry_id) ;;;
  vendor_id <- map_err POEParseVendorId (vendor_id_read vendor_id_len) ;;
  data_len <- map_err POERead get_u16 ;;
  data <- map_err POERead (get_slice (N.to_nat data_len) MAX_OPAQUE_ELEMENT_DATA_SIZE) ;;
  map_err POERead
    (skip_reserved (oe_padding (4 + N.to_nat vendor_id_len + N.to_nat data_len))) ;;;
  ret (mkOE registry_id vendor_id data).

(** src/msgs/common.rs:33-37.  The [total_elements] used elements; unused array
    cells are the default in every constructible value and are dropped. *)
Definition OpaqueData := list OpaqueElement.

(** src/msgs/common.rs:40-44 *)
Definition od_serialized_size (d : OpaqueData) : nat :=
  4 + fold_left (fun acc e => acc + oe_serialized_size e) d 0.

(** src/msgs/common.rs:46-53 *)
Definition od_write (d : OpaqueData) : M Writer WriteOpaqueElementError unit :=
  map_err woe_from (put (N.of_nat (length d))) ;;;
  map_err woe_from (put_reserved 3) ;;;
  iterM d oe_write.

(** src/msgs/common.rs:55-64 *)
Definition od_read : M Reader ParseOpaqueDataError OpaqueData :=
  total_elements <- map_err PODRead get_byte ;;
  map_err PODRead (skip_reserved 3) ;;;
  elements <- fill (N.to_nat total_elements) 0 (repeat oe_default MAX_OPAQUE_ELEMENTS)
                   (map_err PODParseOpaqueElement oe_read) ;;
  ret (firstn (N.to_nat total_elements) elements).

(** src/msgs/common.rs:346-353: DigestSize::try_from(..).unwrap() *)
Definition digest_size {E} (x : nat) : res E nat :=
  if x <=? MAX_DIGEST_SIZE then Ok x else Panic PUnwrap.
(** src/msgs/common.rs:429-436: SignatureSize::try_from(..).unwrap() *)
Definition signature_size {E} (x : nat) : res E nat :=
  if x <=? MAX_SIGNATURE_SIZE then Ok x else Panic PUnwrap.

(** DigestBuf and SignatureBuf are represented by their visible contents
    ([as_ref()], src/msgs/common.rs:381-385, 464-468); Bufs.v models the storage.
    src/msgs/common.rs:367-374, 450-457: [read] slices its own storage to the
    requested (checked) size, so the destination length equals the size. *)
Definition digest_read (size : nat) : M Reader ReadError (list N) := get_slice size size.
Definition signature_read (size : nat) : M Reader ReadError (list N) := get_slice size size.

End MsgTrait.
