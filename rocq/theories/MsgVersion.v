(** Model of src/msgs/version.rs. *)
From Verif Require Import Base Config Encoding MsgCommon.

Section Version.
Context {cfg : Config}.

(** src/msgs/version.rs:23-25 *)
Definition get_version_write_body : M Writer BufferFullError nat := put_reserved 2.

(** src/msgs/version.rs:29-33 *)
Definition get_version_parse : M Reader ReadError unit := skip_reserved 2 ;;; ret tt.
Definition get_version_parse_body (buf : list N) : res ReadError unit := run_parser get_version_parse buf.

(** src/msgs/version.rs:39 *)
Definition MAX_ALLOWED_VERSIONS : nat := 2.

(** src/msgs/version.rs:43-48 *)
Record VersionEntry := mkVE { ve_major : N; ve_minor : N; ve_update : N; ve_alpha : N }.
(** derived Default, src/msgs/version.rs:42 *)
Definition ve_default := mkVE 0 0 0 0.

(** src/msgs/version.rs:52-55; the array has MAX_ALLOWED_VERSIONS cells. *)
Record Version := mkVersion { v_num_entries : N; v_entries : list VersionEntry }.

(** src/msgs/version.rs:58-63 *)
Definition version_empty := mkVersion 0 (repeat ve_default MAX_ALLOWED_VERSIONS).

(** src/msgs/version.rs:68-78 *)
Definition version_default := mkVersion 2 [mkVE 1 0 0 0; mkVE 1 1 0 0].

(** src/msgs/version.rs:98-99 (u8 [<<] by the constant 4 drops the high bits). *)
Definition ve_write (v : VersionEntry) : M Writer BufferFullError unit :=
  put (N.lor (ve_alpha v) (N.shiftl (ve_update v) 4 mod 256)) ;;;
  put (N.lor (ve_minor v) (N.shiftl (ve_major v) 4 mod 256)) ;;;
  ret tt.

(** src/msgs/version.rs:89-103 *)
Definition version_write_body (v : Version) : M Writer BufferFullError nat :=
  put 0 ;;; put 0 ;;; put 0 ;;;
  put (v_num_entries v) ;;;
  iterM (v_entries v) ve_write ;;;
  w_offset.

(** src/msgs/version.rs:107-113 *)
Inductive ParseVersionError := TooManyVersionsReceived | PVRead (e : ReadError).

(** src/msgs/version.rs:138-143: struct fields are evaluated in source order. *)
Definition ve_read : M Reader ParseVersionError VersionEntry :=
  alpha <- map_err PVRead (get_bits 4) ;;
  update <- map_err PVRead (get_bits 4) ;;
  minor <- map_err PVRead (get_bits 4) ;;
  major <- map_err PVRead (get_bits 4) ;;
  ret (mkVE major minor update alpha).

(** src/msgs/version.rs:122-147 *)
Definition version_parse : M Reader ParseVersionError Version :=
  map_err PVRead (skip_reserved 3) ;;;
  num_entries <- map_err PVRead get_byte ;;
  if (N.of_nat MAX_ALLOWED_VERSIONS <? num_entries)%N then err TooManyVersionsReceived
  else
    entries <- fill (N.to_nat num_entries) 0 (v_entries version_empty) ve_read ;;
    ret (mkVersion num_entries entries).
Definition version_parse_body (buf : list N) : res ParseVersionError Version := run_parser version_parse buf.

End Version.
