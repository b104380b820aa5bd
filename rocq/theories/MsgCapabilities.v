(** Model of src/msgs/capabilities.rs.  A flag set is the u32 it wraps. *)
From Verif Require Import Base Config Encoding MsgCommon.

(** src/msgs/capabilities.rs:15-27 *)
Definition ReqFlags_CERT_CAP : N := 0x2.
Definition ReqFlags_CHAL_CAP : N := 0x4.
Definition ReqFlags_ENCRYPT_CAP : N := 0x40.
Definition ReqFlags_MAC_CAP : N := 0x80.
Definition ReqFlags_MUT_AUTH_CAP : N := 0x100.
Definition ReqFlags_KEY_EX_CAP : N := 0x200.
Definition ReqFlags_PSK_CAP : N := 0x400.
Definition ReqFlags_PSK_CAP_MASK : N := N.lor ReqFlags_PSK_CAP 0x800.
Definition ReqFlags_ENCAP_CAP : N := 0x1000.
Definition ReqFlags_HBEAT_CAP : N := 0x2000.
Definition ReqFlags_KEY_UPD_CAP : N := 0x4000.
Definition ReqFlags_HANDSHAKE_IN_THE_CLEAR_CAP : N := 0x8000.
Definition ReqFlags_PUB_KEY_ID_CAP : N := 0x10000.
(** bitflags' [all()]: the union of the constants. *)
Definition ReqFlags_all : N :=
  fold_left N.lor
    [ReqFlags_CERT_CAP; ReqFlags_CHAL_CAP; ReqFlags_ENCRYPT_CAP; ReqFlags_MAC_CAP;
     ReqFlags_MUT_AUTH_CAP; ReqFlags_KEY_EX_CAP; ReqFlags_PSK_CAP; ReqFlags_PSK_CAP_MASK;
     ReqFlags_ENCAP_CAP; ReqFlags_HBEAT_CAP; ReqFlags_KEY_UPD_CAP;
     ReqFlags_HANDSHAKE_IN_THE_CLEAR_CAP; ReqFlags_PUB_KEY_ID_CAP] 0%N.

(** src/msgs/capabilities.rs:117-133 *)
Definition RspFlags_CACHE_CAP : N := 0x1.
Definition RspFlags_CERT_CAP : N := 0x2.
Definition RspFlags_CHAL_CAP : N := 0x4.
Definition RspFlags_MEAS_CAP_NO_SIG : N := 0x8.
Definition RspFlags_MEAS_CAP_SIG : N := 0x10.
Definition RspFlags_MEAS_FRESH_CAP : N := 0x20.
Definition RspFlags_ENCRYPT_CAP : N := 0x40.
Definition RspFlags_MAC_CAP : N := 0x80.
Definition RspFlags_MUT_AUTH_CAP : N := 0x100.
Definition RspFlags_KEY_EX_CAP : N := 0x200.
Definition RspFlags_PSK_CAP : N := 0x400.
Definition RspFlags_PSX_CAP_WITH_CONTEXT : N := 0x800.
Definition RspFlags_ENCAP_CAP : N := 0x1000.
Definition RspFlags_HBEAT_CAP : N := 0x2000.
Definition RspFlags_KEY_UPD_CAP : N := 0x4000.
Definition RspFlags_HANDSHAKE_IN_THE_CLEAR_CAP : N := 0x8000.
Definition RspFlags_PUB_KEY_ID_CAP : N := 0x10000.
Definition RspFlags_all : N :=
  fold_left N.lor
    [RspFlags_CACHE_CAP; RspFlags_CERT_CAP; RspFlags_CHAL_CAP; RspFlags_MEAS_CAP_NO_SIG;
     RspFlags_MEAS_CAP_SIG; RspFlags_MEAS_FRESH_CAP; RspFlags_ENCRYPT_CAP; RspFlags_MAC_CAP;
     RspFlags_MUT_AUTH_CAP; RspFlags_KEY_EX_CAP; RspFlags_PSK_CAP; RspFlags_PSX_CAP_WITH_CONTEXT;
     RspFlags_ENCAP_CAP; RspFlags_HBEAT_CAP; RspFlags_KEY_UPD_CAP;
     RspFlags_HANDSHAKE_IN_THE_CLEAR_CAP; RspFlags_PUB_KEY_ID_CAP] 0%N.

Local Open Scope string_scope.

(** A string-keyed [match]: the first row whose key is [s]. *)
Fixpoint str_lookup {A} (s : string) (t : list (string * A)) : option A :=
  match t with
  | [] => None
  | (k, v) :: r => if String.eqb s k then Some v else str_lookup s r
  end.

(** src/msgs/capabilities.rs:37-61 *)
Definition ReqFlags_table : list (string * N) :=
  [("CERT_CAP", ReqFlags_CERT_CAP);
   ("CHAL_CAP", ReqFlags_CHAL_CAP);
   ("ENCRYPT_CAP", ReqFlags_ENCRYPT_CAP);
   ("MAC_CAP", ReqFlags_MAC_CAP);
   ("MUT_AUTH_CAP", ReqFlags_MUT_AUTH_CAP);
   ("KEY_EX_CAP", ReqFlags_KEY_EX_CAP);
   ("PSK_CAP", ReqFlags_PSK_CAP);
   ("ENCAP_CAP", ReqFlags_ENCAP_CAP);
   ("HBEAT_CAP", ReqFlags_HBEAT_CAP);
   ("KEY_UPD_CAP", ReqFlags_KEY_UPD_CAP);
   ("HANDSHAKE_IN_THE_CLEAR_CAP", ReqFlags_HANDSHAKE_IN_THE_CLEAR_CAP);
   ("PUB_KEY_ID_CAP", ReqFlags_PUB_KEY_ID_CAP)].
Definition ReqFlags_from_str (s : string) : option N := str_lookup s ReqFlags_table.

(** src/msgs/capabilities.rs:143-169 *)
Definition RspFlags_table : list (string * N) :=
  [("CACHE_CAP", RspFlags_CACHE_CAP);
   ("CERT_CAP", RspFlags_CERT_CAP);
   ("CHAL_CAP", RspFlags_CHAL_CAP);
   ("MEAS_FRESH_CAP", RspFlags_MEAS_FRESH_CAP);
   ("ENCRYPT_CAP", RspFlags_ENCRYPT_CAP);
   ("MAC_CAP", RspFlags_MAC_CAP);
   ("MUT_AUTH_CAP", RspFlags_MUT_AUTH_CAP);
   ("KEY_EX_CAP", RspFlags_KEY_EX_CAP);
   ("PSK_CAP", RspFlags_PSK_CAP);
   ("ENCAP_CAP", RspFlags_ENCAP_CAP);
   ("HBEAT_CAP", RspFlags_HBEAT_CAP);
   ("KEY_UPD_CAP", RspFlags_KEY_UPD_CAP);
   ("HANDSHAKE_IN_THE_CLEAR_CAP", RspFlags_HANDSHAKE_IN_THE_CLEAR_CAP);
   ("PUB_KEY_ID_CAP", RspFlags_PUB_KEY_ID_CAP)].
Definition RspFlags_from_str (s : string) : option N := str_lookup s RspFlags_table.

Local Close Scope string_scope.

Section Capabilities.
Context {cfg : Config}.

(** src/msgs/capabilities.rs:63-67 and 171-175 (same shape) *)
Inductive ParseCapabilitiesError := CapInvalidBitsSet | CapRead (e : ReadError).

(** src/msgs/capabilities.rs:76-79 *)
Record GetCapabilities := mkGetCapabilities { gc_ct_exponent : N; gc_flags : N }.
(** src/msgs/capabilities.rs:184-187 *)
Record Capabilities := mkCapabilities { cap_ct_exponent : N; cap_flags : N }.

(** src/msgs/capabilities.rs:90-95 *)
Definition get_capabilities_write_body (m : GetCapabilities) : M Writer BufferFullError nat :=
  put_reserved 3 ;;; put (gc_ct_exponent m) ;;; put_reserved 2 ;;; put_u32 (gc_flags m).

(** src/msgs/capabilities.rs:99-110 *)
Definition get_capabilities_parse : M Reader ParseCapabilitiesError GetCapabilities :=
  map_err CapRead (skip_reserved 3) ;;;
  ct_exponent <- map_err CapRead get_byte ;;
  map_err CapRead (skip_reserved 2) ;;;
  flags <- map_err CapRead get_u32 ;;
  flags <- lift (of_option CapInvalidBitsSet (from_bits ReqFlags_all flags)) ;;
  ret (mkGetCapabilities ct_exponent flags).
Definition get_capabilities_parse_body (buf : list N) := run_parser get_capabilities_parse buf.

(** src/msgs/capabilities.rs:198-203 *)
Definition capabilities_write_body (m : Capabilities) : M Writer BufferFullError nat :=
  put_reserved 3 ;;; put (cap_ct_exponent m) ;;; put_reserved 2 ;;; put_u32 (cap_flags m).

(** src/msgs/capabilities.rs:207-218 *)
Definition capabilities_parse : M Reader ParseCapabilitiesError Capabilities :=
  map_err CapRead (skip_reserved 3) ;;;
  ct_exponent <- map_err CapRead get_byte ;;
  map_err CapRead (skip_reserved 2) ;;;
  flags <- map_err CapRead get_u32 ;;
  flags <- lift (of_option CapInvalidBitsSet (from_bits RspFlags_all flags)) ;;
  ret (mkCapabilities ct_exponent flags).
Definition capabilities_parse_body (buf : list N) := run_parser capabilities_parse buf.

End Capabilities.
