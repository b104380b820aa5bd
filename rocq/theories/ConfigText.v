(** Model of the text build.rs generates: config.rs.template with its holes
    filled.  The files and SPDM_CONFIG are in BuildScript.v; here the
    input is the deserialized record, the output the text written to config.rs. *)
From Coq Require Import Ascii DecimalString.
From Verif Require Import Base Config ConfigBuild.
Local Open Scope string_scope.

(** config.rs.template:1-44, verbatim *)
Definition template : string :=
"// This Source Code Form is subject to the terms of the Mozilla Public
// License, v. 2.0. If a copy of the MPL was not distributed with this
// file, You can obtain one at https://mozilla.org/MPL/2.0/.

pub const NUM_SLOTS: usize = {};

/// The maximum size of a certificate chain supported in the system. The
/// absolute maximum size supported by the spec is 65536 bytes.
pub const MAX_CERT_CHAIN_SIZE: usize = {};

/// The maximum depth of a certificate chain
/// We limit this only to be able to size arrays of references properly.
pub const MAX_CERT_CHAIN_DEPTH: usize = {};

/// This must be larger than MAX_CERT_CHAIN_SIZE
pub const TRANSCRIPT_SIZE: usize = {};

/// The maximum size of a hash in bytes.
pub const MAX_DIGEST_SIZE: usize = {};

/// The maximum size of a signature in bytes
pub const MAX_SIGNATURE_SIZE: usize = {};

/// The maximum size of an opaque element data from table 93 in v1.2.0 of the SPDM spec
pub const MAX_OPAQUE_ELEMENT_DATA_SIZE: usize = {};

/// The maximum number of opaque elements from table 92 in v1.2.0 of the SPDM spec
pub const MAX_OPAQUE_ELEMENTS: usize = {};

/// The maximum number of measurement blocks available
pub const MAX_MEASUREMENT_BLOCKS: usize = {};

/// The maximum size of an individual measurement
pub const MAX_MEASUREMENT_SIZE: usize = {};

// The capabilities for a given endpoint
//
// We don't break these up into requester and responder roles, because it is
// expected that an endpoint will act as both requester and responder in different
// contexts.
pub const CAPABILITIES: &'static [&'static str] = &{};

/// All supported asymmetric signing algorithms
pub const ALGORITHMS_ASYMMETRIC_SIGNING: &'static [&'static str] = &{};
".

(** [usize::to_string] (std): decimal digits, no leading zero *)
Definition usize_to_string (n : nat) : string := NilZero.string_of_uint (Nat.to_uint n).

(** [str::escape_debug] (std), used by [Debug for str], on the characters that
    can occur: printable ASCII.  Other characters are left alone here, which the
    code cannot observe, as C67 shows that no other character gets this far. *)
Fixpoint escape_debug (s : string) : string :=
  match s with
  | EmptyString => EmptyString
  | String c r =>
    (if (c =? """")%char || (c =? "\")%char then String "\" (String c EmptyString) else String c EmptyString) ++ escape_debug r
  end.
(** [Debug for String] (std) *)
Definition debug_string (s : string) : string := """" ++ escape_debug s ++ """".
(** [Debug for Vec<String>] (std): [DebugList] without the alternate flag *)
Definition debug_strings (l : list string) : string := "[" ++ String.concat ", " (map debug_string l) ++ "]".

(** [str::split("{}")] (std): the pieces between the holes.  [acc] is the piece
    read so far. *)
Fixpoint split_holes (acc : string) (s : string) : list string :=
  match s with
  | String "{" (String "}" r) => acc :: split_holes EmptyString r
  | String c r => split_holes (acc ++ String c EmptyString) r
  | EmptyString => [acc]
  end.

(** build.rs:161-176: the parameters, in this order *)
Definition template_params (max_sig : nat) (c : SpdmConfig) : list string :=
  [usize_to_string (sc_num_slots c);
   usize_to_string (sc_buf_size c);
   usize_to_string (sc_max_depth c);
   usize_to_string (sc_transcript_buf_size c);
   usize_to_string (sc_max_digest_size c);
   usize_to_string max_sig;
   usize_to_string (sc_opaque_max_element_data_size c);
   usize_to_string (sc_opaque_max_elements c);
   usize_to_string (sc_meas_max_blocks c);
   usize_to_string (sc_meas_max_size c);
   debug_strings (sc_capabilities c);
   debug_strings (sc_asymmetric_signing c);
   ""].
(** build.rs:153-182: [split], [zip], [format!("{}{}")], [collect] *)
Definition gen_config_text (crypto_ring : bool) (c : SpdmConfig) : res SpdmConfigError string :=
  rbind (max_signature_size (sc_asymmetric_signing c)) (fun max_sig =>
  rbind (cert_chains_validate c) (fun _ =>
  rbind (validate_capabilities crypto_ring (sc_capabilities c)) (fun _ =>
  Ok (String.concat "" (map (fun p => fst p ++ snd p) (combine (split_holes "" template) (template_params max_sig c))))))).
