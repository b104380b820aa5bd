(** Model of src/msgs/error.rs (the SPDM ERROR response). *)
From Verif Require Import Base Config Encoding MsgCommon.

(** src/msgs/error.rs:94-95 *)
Definition Error_id := mkMsgId 0x12 0x7F.

Section Error.
Context {cfg : Config}.

(** src/msgs/error.rs:16-21 *)
Inductive ParseErrorError :=
| PERead (e : ReadError) | InvalidErrorCode | PEParseVendorId (e : ParseVendorIdError)
| PEParseVendorRegistryId.

(** src/msgs/error.rs:85-90 *)
Record ResponseNotReady := mkRNR { rnr_rdt_exponent : N; rnr_request_code : N; rnr_token : N; rnr_rdtm : N }.

(** src/msgs/error.rs:66-72; [vd_opaque] is [opaque_error_data[..opaque_len]]. *)
Record VendorDefined := mkVD { vd_vendor_id : VendorId; vd_opaque : list N }.

(** src/msgs/error.rs:43-63 *)
Inductive ErrorMsg :=
| InvalidRequest | Busy | UnexpectedRequest | Unspecified | DecryptError
| UnsupportedRequest (code : N) | RequestInFlight | InvalidResponseCode | SessionLimitExceeded
| SessionRequired | ResetRequired | ResponseTooLarge (actual_size : N) | RequestTooLarge
| LargeResponse (handle : N) | MessageLost | VersionMismatch
| RespNotReady (v : ResponseNotReady) | RequestResynch
| VendorDef (id : VendorRegistryId) (v : VendorDefined).

(** src/msgs/error.rs:99-187 *)
Definition error_write_body (m : ErrorMsg) : M Writer BufferFullError nat :=
  (match m with
   | InvalidRequest => put 0x1 ;;; put 0 ;;; ret tt
   | Busy => put 0x3 ;;; put 0 ;;; ret tt
   | UnexpectedRequest => put 0x4 ;;; put 0 ;;; ret tt
   | Unspecified => put 0x5 ;;; put 0 ;;; ret tt
   | DecryptError => put 0x6 ;;; put 0 ;;; ret tt
   | UnsupportedRequest req_code => put 0x7 ;;; put req_code ;;; ret tt
   | RequestInFlight => put 0x8 ;;; put 0 ;;; ret tt
   | InvalidResponseCode => put 0x9 ;;; put 0 ;;; ret tt
   | SessionLimitExceeded => put 0xA ;;; put 0 ;;; ret tt
   | SessionRequired => put 0xB ;;; put 0 ;;; ret tt
   | ResetRequired => put 0xC ;;; put 0 ;;; ret tt
   | ResponseTooLarge actual_size => put 0xD ;;; put 0 ;;; put_u32 actual_size ;;; ret tt
   | RequestTooLarge => put 0xE ;;; put 0 ;;; ret tt
   | LargeResponse handle => put 0xF ;;; put 0 ;;; put handle ;;; ret tt
   | MessageLost => put 0x10 ;;; put 0 ;;; ret tt
   | VersionMismatch => put 0x41 ;;; put 0 ;;; ret tt
   | RespNotReady v =>
     put 0x42 ;;; put 0 ;;; put (rnr_rdt_exponent v) ;;; put (rnr_request_code v) ;;;
     put (rnr_token v) ;;; put (rnr_rdtm v) ;;; ret tt
   | RequestResynch => put 0x43 ;;; put 0 ;;; ret tt
   | VendorDef id v =>
     put 0xFF ;;; put (registry_to_u8 id) ;;;
     vendor_id_write (vd_vendor_id v) ;;; w_extend (vd_opaque v) ;;; ret tt
   end) ;;;
  w_offset.

(** src/msgs/error.rs:191-252 *)
Definition error_parse : M Reader ParseErrorError ErrorMsg :=
  code <- map_err PERead get_byte ;;
  data <- map_err PERead get_byte ;;
  match code with
  | 0x1 => ret InvalidRequest
  | 0x3 => ret Busy
  | 0x4 => ret UnexpectedRequest
  | 0x5 => ret Unspecified
  | 0x6 => ret DecryptError
  | 0x7 => ret (UnsupportedRequest data)
  | 0x8 => ret RequestInFlight
  | 0x9 => ret InvalidResponseCode
  | 0xA => ret SessionLimitExceeded
  | 0xB => ret SessionRequired
  | 0xC => ret ResetRequired
  | 0xD => actual_size <- map_err PERead get_u32 ;; ret (ResponseTooLarge actual_size)
  | 0xE => ret RequestTooLarge
  | 0xF => handle <- map_err PERead get_byte ;; ret (LargeResponse handle)
  | 0x10 => ret MessageLost
  | 0x41 => ret VersionMismatch
  | 0x42 =>
    rdt_exponent <- map_err PERead get_byte ;;
    request_code <- map_err PERead get_byte ;;
    token <- map_err PERead get_byte ;;
    rdtm <- map_err PERead get_byte ;;
    ret (RespNotReady (mkRNR rdt_exponent request_code token rdtm))
  | 0x43 => ret RequestResynch
  | 0xFF =>
    vendor_registry_id <- lift (of_option PEParseVendorRegistryId (registry_of_u8 data)) ;;
    vendor_id_len <- map_err PERead get_byte ;;
    vendor_id <- map_err PEParseVendorId (vendor_id_read vendor_id_len) ;;
    ret (VendorDef vendor_registry_id (mkVD vendor_id []))
  | _ => err InvalidErrorCode
  end%N.
Definition error_parse_body (buf : list N) := run_parser error_parse buf.

End Error.
