(** Model of [main] of build.rs, of the files and the variable it reads, and of
    when cargo runs it. *)
From Coq Require Import Ascii.
From Verif Require Import Base Config ConfigBuild ConfigText.
Local Open Scope string_scope.

(** What a build sees: the files of the package directory, SPDM_CONFIG, and
    whether the feature crypto-ring is on (CARGO_FEATURE_CRYPTO_RING). *)
Record World := mkWorld { w_file : string -> option string; w_spdm_config : option string; w_ring : bool }.
(** "./x" and "x" name the same file.  Simplified: other ways to write the same
    path ("a/../x", absolute paths, links) are different names here. *)
Definition file_name (p : string) : string :=
  match p with String "." (String "/" r) => r | _ => p end.
(** [read_to_string]: [None] is an error (no such file, not UTF-8) *)
Definition read_file (W : World) (p : string) : option string := w_file W (file_name p).

Section Script.
(** toml::from_str into SpdmConfig; [None] is an error *)
Variable toml : string -> option SpdmConfig.

(** build.rs:186-189 *)
Definition src_path (W : World) : string :=
  match w_spdm_config W with Some path => path | None => "./spdm-config.toml" end.
(** build.rs:145-149 *)
Definition load (W : World) (path : string) : option SpdmConfig :=
  match read_file W path with Some text => toml text | None => None end.
(** build.rs:153-181 with the template as it is in the directory; [None] is an
    error of any kind *)
Definition gen_config_file (W : World) (c : SpdmConfig) : option string :=
  match read_file W "./config.rs.template" with
  | None => None
  | Some template =>
    match rbind (max_signature_size (sc_asymmetric_signing c)) (fun max_sig =>
          rbind (cert_chains_validate c) (fun _ =>
          rbind (validate_capabilities (w_ring W) (sc_capabilities c)) (fun _ =>
          Ok (String.concat "" (map (fun p => fst p ++ snd p) (combine (split_holes "" template) (template_params max_sig c))))))) with
    | Ok text => Some text
    | _ => None
    end
  end.
(** build.rs:184-192: the text of OUT_DIR/config.rs; [None]: an unwrap panicked
    and the build fails.  Not modelled: failures to write OUT_DIR. *)
Definition run_script (W : World) : option string :=
  match load W (src_path W) with Some c => gen_config_file W c | None => None end.

(** build.rs:202-205: what the script tells cargo to watch; the file names and,
    below, SPDM_CONFIG. *)
Definition watched : list string := ["build.rs"; "spdm-config.toml"; "config.rs.template"].

(** * Cargo *)
(** The documented rule: a build script that prints rerun-if lines is run again
    when one of the files named was modified or one of the variables named has a
    different value than at its last run; otherwise its old output is used.  Each
    set of features has an OUT_DIR of its own.  Simplified: "modified" is a
    different content (cargo compares modification times, so that it also reruns,
    to the same effect, when a file was written with the same content). *)
Record Run := mkRun { run_in : World; run_out : string }.
Definition cargo_state := bool -> option Run.
Definition option_eqb (a b : option string) : bool :=
  match a, b with Some x, Some y => String.eqb x y | None, None => true | _, _ => false end.
Definition up_to_date (W0 W : World) : bool :=
  forallb (fun p => option_eqb (read_file W0 p) (read_file W p)) watched && option_eqb (w_spdm_config W0) (w_spdm_config W).
(** One `cargo build`: the config.rs that is compiled into the crate ([None]: the
    build fails), and what cargo remembers.  After a failure it runs the script
    again next time. *)
Definition cargo_build (st : cargo_state) (W : World) : option string * cargo_state :=
  let rerun := (run_script W,
                fun ring => if Bool.eqb ring (w_ring W)
                            then match run_script W with Some out => Some (mkRun W out) | None => None end
                            else st ring) in
  match st (w_ring W) with
  | Some r => if up_to_date (run_in r) W then (Some (run_out r), st) else rerun
  | None => rerun
  end.
(** A clean checkout, and builds at several moments, in order. *)
Definition never_built : cargo_state := fun _ => None.
Definition builds (Ws : list World) : cargo_state := fold_left (fun st W => snd (cargo_build st W)) Ws never_built.
End Script.
