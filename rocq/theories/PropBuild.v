(** C87: which configuration a build uses. *)
From Coq Require Import Ascii.
From Verif Require Import Base Config ConfigBuild ConfigText BuildScript Sample PropTables.
Local Open Scope string_scope.

Section PropBuild.
Variable toml : string -> option SpdmConfig.
Notation run_script := (run_script toml).
Notation cargo_build := (cargo_build toml).
Notation builds := (builds toml).

Lemma option_eqb_eq a b : option_eqb a b = true <-> a = b.
Proof.
  destruct a as [x|], b as [y|]; cbn; try (split; congruence). rewrite String.eqb_eq. split; congruence.
Qed.
(** The two moments look the same to cargo. *)
Definition looks_same (W0 W : World) : Prop :=
  w_ring W0 = w_ring W /\ w_spdm_config W0 = w_spdm_config W /\
  w_file W0 "build.rs" = w_file W "build.rs" /\ w_file W0 "spdm-config.toml" = w_file W "spdm-config.toml" /\
  w_file W0 "config.rs.template" = w_file W "config.rs.template".
Lemma up_to_date_iff W0 W : w_ring W0 = w_ring W -> up_to_date W0 W = true <-> looks_same W0 W.
Proof.
  intros ER. unfold up_to_date, looks_same, watched. cbn [forallb]. rewrite !andb_true_iff, !option_eqb_eq. unfold read_file. cbn. tauto.
Qed.
Lemma same_output W0 W : looks_same W0 W -> w_file W0 (file_name (src_path W)) = w_file W (file_name (src_path W)) ->
  run_script W0 = run_script W.
Proof.
  intros (ER & EC & _ & _ & ET) EF. assert (EP : src_path W0 = src_path W) by (unfold src_path; now rewrite EC).
  unfold BuildScript.run_script, load, read_file. rewrite EP, EF. destruct (w_file W (file_name (src_path W))) as [text|]; [|reflexivity].
  destruct (toml text) as [c|]; [|reflexivity]. unfold gen_config_file, read_file.
  change (file_name "./config.rs.template") with "config.rs.template". now rewrite ET, ER.
Qed.
(** The configuration file the user means: the one SPDM_CONFIG names, else
    spdm-config.toml. *)
Definition configured (W : World) : string :=
  match w_spdm_config W with Some p => file_name p | None => "spdm-config.toml" end.
Lemma configured_path W : file_name (src_path W) = configured W.
Proof. unfold src_path, configured. destruct (w_spdm_config W); reflexivity. Qed.
(** What cargo remembers is a run at one of the moments. *)
Lemma remembered Ws : forall ring r, builds Ws ring = Some r -> In (run_in r) Ws /\ w_ring (run_in r) = ring /\ run_script (run_in r) = Some (run_out r).
Proof.
  unfold BuildScript.builds. induction Ws as [|W Ws IH] using rev_ind; intros ring r; [discriminate|].
  rewrite fold_left_app. cbn [fold_left]. set (st := fold_left _ Ws never_built) in *. unfold BuildScript.cargo_build.
  assert (OLD : st ring = Some r -> In (run_in r) (Ws ++ [W]) /\ w_ring (run_in r) = ring /\ run_script (run_in r) = Some (run_out r)).
  { intros H. destruct (IH ring r H) as (I & A). split; [apply in_or_app; auto|exact A]. }
  assert (NEW : (if Bool.eqb ring (w_ring W) then match run_script W with Some out => Some (mkRun W out) | None => None end else st ring) = Some r ->
    In (run_in r) (Ws ++ [W]) /\ w_ring (run_in r) = ring /\ run_script (run_in r) = Some (run_out r)).
  { destruct (Bool.eqb ring (w_ring W)) eqn:EB; [|exact OLD]. apply Bool.eqb_prop in EB.
    destruct (run_script W) as [out|] eqn:EO; [|discriminate]. intros [= <-]. cbn [run_in run_out].
    split; [apply in_or_app; right; left; reflexivity|]. auto. }
  destruct (st (w_ring W)) as [r0|]; [|exact NEW]. destruct (up_to_date (run_in r0) W); [exact OLD|exact NEW].
Qed.

(** Whatever was built before, a build uses the files as they are, or else it uses
    those of an earlier build that looks the same to cargo, since which the file
    SPDM_CONFIG names was changed. *)
Theorem C87_uses Ws W :
  fst (cargo_build (builds Ws) W) = run_script W \/
  exists W0, In W0 Ws /\ looks_same W0 W /\ fst (cargo_build (builds Ws) W) = run_script W0 /\
    w_file W0 (configured W) <> w_file W (configured W) /\
    (exists p, w_spdm_config W = Some p /\ ~ In (file_name p) ["build.rs"; "spdm-config.toml"; "config.rs.template"]).
Proof.
  unfold BuildScript.cargo_build. destruct (builds Ws (w_ring W)) as [r|] eqn:E; [|left; reflexivity].
  destruct (remembered _ _ _ E) as (I & ER & EO). destruct (up_to_date (run_in r) W) eqn:EU; [|left; reflexivity].
  apply up_to_date_iff in EU; [|exact ER]. cbn [fst]. rewrite <- EO.
  assert (D : w_file (run_in r) (configured W) = w_file W (configured W) \/ w_file (run_in r) (configured W) <> w_file W (configured W)).
  { destruct (option_eqb (w_file (run_in r) (configured W)) (w_file W (configured W))) eqn:EE.
    - left. now apply option_eqb_eq. - right. intros X. apply option_eqb_eq in X. congruence. }
  destruct D as [D|D]; [left; apply same_output; [exact EU|rewrite configured_path; exact D]|]. right. exists (run_in r). split; [exact I|]. split; [exact EU|]. split; [reflexivity|]. split; [exact D|].
  destruct EU as (_ & _ & E1 & E2 & E3). unfold configured in D. destruct (w_spdm_config W) as [p|]; [|now destruct D].
  exists p. split; [reflexivity|]. intros [X|[X|[X|[]]]]; rewrite <- X in D; auto.
Qed.
(** With SPDM_CONFIG unset, or naming spdm-config.toml, a build always uses the
    configuration as it is now.  Missing: other values of SPDM_CONFIG, for which it
    is false (C87_stale, C87_edit_ignored_refuted). *)
Theorem C87_default_file_partial Ws W : configured W = "spdm-config.toml" -> fst (cargo_build (builds Ws) W) = run_script W.
Proof.
  intros EF. destruct (C87_uses Ws W) as [H|(W0 & _ & (_ & _ & _ & E2 & _) & _ & D & _)]; [exact H|]. rewrite EF in D. contradiction.
Qed.
(** So does the first build, and any build after the variable, the template or
    the features changed. *)
Theorem C87_first_partial Ws W : (forall W0, In W0 Ws -> ~ looks_same W0 W) -> fst (cargo_build (builds Ws) W) = run_script W.
Proof. intros H. destruct (C87_uses Ws W) as [E|(W0 & I & S & _)]; [exact E|]. destruct (H W0 I S). Qed.
(** Any other configuration file is read once: whatever it is changed to (even if
    the new contents would be refused), the next build compiles the old constants. *)
Theorem C87_stale W0 W out : looks_same W0 W -> run_script W0 = Some out -> fst (cargo_build (builds [W0]) W) = Some out.
Proof.
  intros S E. unfold BuildScript.builds. cbn [fold_left]. unfold BuildScript.cargo_build at 2. cbn [never_built snd]. rewrite E.
  unfold BuildScript.cargo_build. destruct S as (ER & S). rewrite ER, Bool.eqb_reflx. cbn [run_in].
  replace (up_to_date W0 W) with true; [reflexivity|]. symmetry. apply up_to_date_iff; [exact ER|]. split; assumption.
Qed.
(** The script's output, when template and configuration are in place, is that of C67. *)
Theorem C87_output W text c : w_file W "config.rs.template" = Some template ->
  w_file W (configured W) = Some text -> toml text = Some c ->
  run_script W = match gen_config_text (w_ring W) c with Ok t => Some t | _ => None end.
Proof.
  intros ET EF EC. unfold BuildScript.run_script, load, read_file. rewrite configured_path. rewrite EF, EC. unfold gen_config_file, read_file.
  change (file_name "./config.rs.template") with "config.rs.template". rewrite ET. reflexivity.
Qed.
(** Without the configuration file, with one that does not parse or is refused,
    the build fails (unless nothing cargo watches changed). *)
Theorem C87_fails W : run_script W = None <->
  match w_file W (configured W) with
  | None => True
  | Some text => match toml text with
                 | None => True
                 | Some c => w_file W "config.rs.template" = None \/ forall t, gen_config_text (w_ring W) c <> Ok t
                 end
  end.
Proof.
  unfold BuildScript.run_script, load, read_file. rewrite configured_path. destruct (w_file W (configured W)) as [text|]; [|tauto].
  destruct (toml text) as [c|]; [|tauto]. unfold gen_config_file, read_file, gen_config_text.
  change (file_name "./config.rs.template") with "config.rs.template". destruct (w_file W "config.rs.template") as [tm|].
  2: tauto.
  destruct (max_signature_size (sc_asymmetric_signing c)) as [n|e|p]; cbn [rbind].
  2,3: split; [intros _; right; discriminate|reflexivity].
  destruct (cert_chains_validate c) as [[]|e|p]; cbn [rbind].
  2,3: split; [intros _; right; discriminate|reflexivity].
  destruct (validate_capabilities (w_ring W) (sc_capabilities c)) as [[]|e|p]; cbn [rbind].
  2,3: split; [intros _; right; discriminate|reflexivity].
  split; [discriminate|]. intros [X|X]; [discriminate|]. exfalso. eapply X. reflexivity.
Qed.
End PropBuild.

(** The documented way to build with crypto sets SPDM_CONFIG=spdm-config-crypto.toml.
    After a first build the capability CHAL_CAP is taken out of that file: the next
    build succeeds and still has it. *)
Definition no_chal_toml : SpdmConfig :=
  mkSpdmConfig (sc_num_slots sample_toml) (sc_buf_size sample_toml) (sc_max_depth sample_toml) (sc_transcript_buf_size sample_toml)
    ["CERT_CAP"] (sc_max_digest_size sample_toml) (sc_asymmetric_signing sample_toml) (sc_meas_max_blocks sample_toml) (sc_meas_max_size sample_toml)
    (sc_opaque_max_elements sample_toml) (sc_opaque_max_element_data_size sample_toml).
(** the texts stand for their parse *)
Definition toy_toml (text : string) : option SpdmConfig :=
  if String.eqb text "with CHAL_CAP" then Some sample_toml else if String.eqb text "without CHAL_CAP" then Some no_chal_toml else None.
Definition dir (crypto_toml : string) (p : string) : option string :=
  if String.eqb p "build.rs" then Some "the script" else if String.eqb p "config.rs.template" then Some template
  else if String.eqb p "spdm-config-crypto.toml" then Some crypto_toml else if String.eqb p "spdm-config.toml" then Some crypto_toml else None.
Definition at_first : World := mkWorld (dir "with CHAL_CAP") (Some "spdm-config-crypto.toml") true.
Definition edited : World := mkWorld (fun p => if String.eqb p "spdm-config.toml" then Some "with CHAL_CAP" else dir "without CHAL_CAP" p) (Some "spdm-config-crypto.toml") true.
Theorem C87_edit_ignored_refuted :
  exists old new, run_script toy_toml at_first = Some old /\ run_script toy_toml edited = Some new /\
    fst (cargo_build toy_toml (builds toy_toml [at_first]) edited) = Some old /\ old <> new.
Proof.
  destruct (run_script toy_toml at_first) as [old|] eqn:E1; [|vm_compute in E1; discriminate].
  destruct (run_script toy_toml edited) as [new|] eqn:E2; [|vm_compute in E2; discriminate].
  exists old, new. split; [reflexivity|]. split; [reflexivity|]. split.
  - apply C87_stale; [|exact E1]. unfold looks_same. cbn. auto.
  - intros E. apply (f_equal String.length) in E.
    assert (L1 : option_map String.length (run_script toy_toml at_first) = Some (String.length old)) by now rewrite E1.
    assert (L2 : option_map String.length (run_script toy_toml edited) = Some (String.length new)) by now rewrite E2.
    rewrite E, <- L2 in L1. vm_compute in L1. discriminate.
Qed.
(** With the variable unset the edit is seen. *)
Definition unset (W : World) : World := mkWorld (fun p => if String.eqb p "spdm-config.toml" then w_file W "spdm-config-crypto.toml" else w_file W p) None (w_ring W).
Example C87_example :
  configured (unset edited) = "spdm-config.toml" /\
  fst (cargo_build toy_toml (builds toy_toml [unset at_first; at_first]) (unset edited)) = run_script toy_toml (unset edited) /\
  run_script toy_toml (unset edited) = run_script toy_toml edited /\ run_script toy_toml edited <> None /\
  gen_config_text true no_chal_toml <> gen_config_text true sample_toml.
Proof.
  split; [reflexivity|]. split; [apply C87_default_file_partial; reflexivity|]. split; [vm_compute; reflexivity|].
  split; [vm_compute; discriminate|]. intros E. vm_compute in E. discriminate.
Qed.
Print Assumptions C87_uses.
Print Assumptions C87_default_file_partial.
Print Assumptions C87_stale.
Print Assumptions C87_edit_ignored_refuted.
