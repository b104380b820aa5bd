(** C58, exactly: which accepted messages can be written again, and which of
    them are then read back as the same value. *)
From Verif Require Import Base BaseLemmas Config Encoding MsgCommon MsgVersion MsgCapabilities MsgAlgorithms MsgDigest
     MsgCertificates MsgChallenge MsgError MsgMeasurements SpecWire SpecMsgs WriterLogic ReaderLogic ReaderLoops GramBasic
     GramOpaque GramChal GramMeas PropTools PropChal PropMeas PropGeneric RspStep PropCanon Sample.

#[local] Arguments Nat.leb : simpl never.
Section Props.
Context {cfg : Config}.

(** The accepted values that survive re-encoding. *)
Definition survives (m : message) : Prop :=
  match m with
  | MChallengeAuth a => ca_use_mutual_auth a = false
  | MMeasurements a => (m_signature a = None -> m_slot_id a = 0%N) /\ length (opaque_bytes (m_opaque_data a)) <= 1024
  | _ => True
  end.
(** The accepted values that can be written. *)
Definition can_be_written (m : message) : Prop :=
  match m with
  | MChallengeAuth a => N.to_nat (ca_slot a) < NUM_SLOTS /\ length (opaque_bytes (ca_opaque_data a)) <= 1024
  | MMeasurements a => (N.of_nat (length (opaque_bytes (m_opaque_data a))) < 65536)%N
  | _ => True
  end.

Lemma kind3 k : k = KChallengeAuth \/ k = KMeasurements \/ (k <> KChallengeAuth /\ k <> KMeasurements).
Proof. destruct k; auto; right; right; split; discriminate. Qed.

Ltac split_bytes H := repeat match type of H with
  | bytes (?a ++ ?b) => let H' := fresh "B" in apply bytes_app in H as [H' H]; split_bytes H'
  | bytes [?a] => apply Forall_inv in H
  end.
Lemma u16le_inj a b : (a < 65536)%N -> (b < 65536)%N -> u16le a = u16le b -> a = b.
Proof.
  intros A B E. injection E as E1 E2. rewrite !(N.mod_small (_ / 256)) in E2 by (apply N.div_lt_upper_bound; lia).
  rewrite (N.div_mod a 256), (N.div_mod b 256) by lia. congruence.
Qed.
(** What writing an accepted CHALLENGE_AUTH needs. *)
Lemma parsed_ca ds ss sr body a : bytes body -> parse_any KChallengeAuth ds ss sr body = Ok (MChallengeAuth a) ->
  N.to_nat (ca_slot a) < NUM_SLOTS -> length (opaque_bytes (ca_opaque_data a)) <= 1024 -> ca_valid ds ss a.
Proof.
  intros HB HP W1 W2. unfold parse_any in HP. apply forget_ok in HP as (a' & HP & [= ->]).
  apply C15_challenge_auth_parse in HP as (bs & r & -> & rsvd & olen & R1 & R2 & R3 & ->); auto.
  unfold ca_bytes, challenge_auth_layout in HB. split_bytes HB. split; [auto|]. repeat split; auto. now apply od_bytes_inv.
Qed.
Lemma parsed_ca_ok ds ss sr body a : bytes body -> parse_any KChallengeAuth ds ss sr body = Ok (MChallengeAuth a) -> od_ok (ca_opaque_data a).
Proof.
  intros HB HP. unfold parse_any in HP. apply forget_ok in HP as (a' & HP & [= ->]).
  apply C15_challenge_auth_parse in HP as (bs & r & -> & rsvd & olen & R1 & R2 & R3 & ->); auto. apply R3.
Qed.
Definition meas_out (a : Measurements) (bl : list MeasurementBlock) : list N :=
  measurements_layout (m_total_blocks a) (match m_signature a with Some _ => m_slot_id a | None => 0%N end) (m_content_changed a) 0 bl
    (m_nonce a) (N.of_nat (length (opaque_bytes (m_opaque_data a)))) (m_opaque_data a) (sig_bytes (m_signature a)).
Lemma parsed_meas ds ss sr body a : bytes body -> parse_any KMeasurements ds ss sr body = Ok (MMeasurements a) ->
  exists bl, meas_ok sr ss a bl /\ bytes (meas_out a bl) /\
    ((N.of_nat (length (opaque_bytes (m_opaque_data a))) < 65536)%N ->
     writes_exactly (write_any (MMeasurements a)) (fun e => e = NoSpace) ([0x12; 0x60]%N ++ meas_out a bl)).
Proof.
  intros HB HP. unfold parse_any in HP. apply forget_ok in HP as (a' & HP & [= ->]).
  apply C19_measurements_parse in HP as (bs & r & -> & rsvd & olen & bl & R1 & R2 & R3 & ->); auto. exists bl. split; [exact R3|].
  pose proof R3 as (G1 & G2 & G3 & G4 & G5 & G6 & G7 & G8 & G9).
  assert (G10 : Forall (fun b => (N.of_nat (length (dmtf_bytes (mb_measurement b))) < 65536)%N) bl).
  { eapply Forall_impl; [|exact G6]. intros b (_ & _ & ?). auto. }
  split.
  - unfold meas_bytes, measurements_layout in HB. split_bytes HB. unfold meas_out, measurements_layout. bts.
    destruct (m_content_changed a), (m_signature a); red; simpl content_changed_code; lia.
  - intros L. pose proof (emits_measurements a bl 2 G4 (proj1 G5) G10 G2 (od_ok_matches _ G8) L) as W.
    cbv zeta in W. apply (writes_ofS Measurements_id wm_from _ meas_error _ (or_introl eq_refl)) in W.
    cbv [write_any]. eapply classify_writes; [exact W|]. intros e [-> | ->]; reflexivity.
Qed.

Lemma meas_too_large a buf n out : od_ok (m_opaque_data a) -> (65536 <= N.of_nat (length (opaque_bytes (m_opaque_data a))))%N ->
  write_any (MMeasurements a) buf <> (Ok n, out).
Proof.
  intros OK G HW. cbn [write_any] in HW. unfold classify in HW.
  destruct (write_msg Measurements_id wm_from (measurements_write_body a) buf) as [r o] eqn:E. cbn [fst snd] in HW.
  destruct r as [k|e|p]; try discriminate. injection HW as -> ->. unfold write_msg in E.
  match type of E with (let '(_, _) := ?t in _) = _ => destruct t as [r w] eqn:E1 end. injection E as -> _.
  apply bind_inv in E1 as (u & w1 & _ & E1). unfold measurements_write_body in E1.
  do 4 (apply bind_inv in E1 as (? & ? & _ & E1)). apply bind_inv in E1 as (os & w2 & E2 & _). apply lift_inv in E2 as [E2 _].
  rewrite od_size_eq in E2 by now apply od_ok_matches. unfold try_u16 in E2.
  rewrite (proj2 (N.ltb_ge _ _) G) in E2. discriminate.
Qed.
Lemma app_split_eq {A} (a b c d : list A) : length a = length c -> a ++ b = c ++ d -> a = c /\ b = d.
Proof.
  revert c. induction a as [|x a IH]; destruct c as [|y c]; simpl; intros L E; try discriminate; auto.
  injection E as -> E. injection L as L. destruct (IH c L E) as [-> ->]. auto.
Qed.

(** The value is preserved exactly in the cases listed. *)
Theorem C58_reencoded_iff k ds ss sr body m buf n out : 1 <= NUM_SLOTS <= 8 -> bytes body -> bytes buf ->
  parse_any k ds ss sr body = Ok m -> write_any m buf = (Ok n, out) ->
  (parse_any k ds ss sr (skipn 2 (firstn n out)) = Ok m <-> survives m).
Proof.
  intros NS HB Hbuf HP HW. split.
  2:{ intros S. refine (proj1 (C58_reencoded k ds ss sr body m buf n out NS HB Hbuf HP _ _ HW));
      intros a ->; exact S. }
  intros HR. destruct (kind3 k) as [-> | [-> | [K1 K2]]].
  - pose proof HP as HP'. unfold parse_any in HP. apply forget_ok in HP as (a & _ & <-). cbn [survives].
    destruct (ca_write_valid a buf n out (parsed_ca_ok ds ss sr body a HB HP') HW) as [W1 W2].
    pose proof (C15_challenge_auth_reads_back ds ss a (parsed_ca ds ss sr body a HB HP' W1 W2)) as RT.
    pose proof (proj1 (round_any _ _ _ MChallengeAuth _ _ RT eq_refl buf n out Hbuf HW)) as X.
    unfold parse_any in HR. rewrite X in HR. injection HR as HR. rewrite <- HR. reflexivity.
  - pose proof HP as HP'. unfold parse_any in HP. apply forget_ok in HP as (a & _ & <-). cbn [survives].
    destruct (parsed_meas ds ss sr body a HB HP') as (bl & OK & BB & W).
    assert (L : (N.of_nat (length (opaque_bytes (m_opaque_data a))) < 65536)%N).
    { destruct (N.ltb_spec (N.of_nat (length (opaque_bytes (m_opaque_data a)))) 65536) as [|G]; [auto|exfalso].
      exact (meas_too_large a buf n out (proj1 (proj2 (proj2 (proj2 (proj2 (proj2 (proj2 (proj2 OK)))))))) G HW). }
    specialize (W L). destruct (writes_inv _ _ _ _ _ _ W HW) as (-> & Ln & ->).
    rewrite firstn_app, Nat.sub_diag, firstn_all, firstn_O, app_nil_r in HR. cbn [app skipn] in HR.
    unfold parse_any in HR. apply forget_ok in HR as (a' & HR & [= ->]).
    apply C19_measurements_parse in HR as (bs & r & E & rsvd & olen & bl' & R1 & R2 & R3 & ->); auto.
    assert (bl' = bl) as ->.
    { destruct OK as (_ & _ & _ & (_ & L1 & M1) & _). destruct R3 as (_ & _ & _ & (_ & L2 & M2) & _).
      rewrite M1 in M2. apply app_split_eq in M2 as [M2 _]; [|rewrite !map_length; lia].
      clear -M2. revert bl' M2. induction bl as [|x bl IH]; destruct bl' as [|y bl']; simpl; intros M2; try discriminate; auto.
      injection M2 as -> M2. now rewrite (IH _ M2). }
    unfold meas_out, meas_bytes, measurements_layout in E. rewrite <- !app_assoc in E.
    apply app_split_eq in E as [_ E]; [|reflexivity]. apply app_split_eq in E as [E1 E]; [|reflexivity]. injection E1 as E1.
    apply app_split_eq in E as [_ E2]; [|reflexivity]. apply app_split_eq in E2 as [_ E2]; [|reflexivity].
    apply app_split_eq in E2 as [E2 _]; [|reflexivity].
    pose proof R3 as (_ & G2 & _). split.
    + intros NSig. rewrite NSig in E1. destruct (m_content_changed a); cbn [content_changed_code] in E1; lia.
    + assert (X : N.of_nat (length (opaque_bytes (m_opaque_data a))) = olen).
      { apply u16le_inj; [exact L|lia|exact E2]. }
      lia.
  - destruct (parsed_representable _ _ _ _ _ _ NS HB K1 K2 HP) as (<- & V). destruct m; try exact I; exfalso; [apply K1|apply K2]; reflexivity.
Qed.

(** There is a size from which on writing succeeds; below it the buffer is too small. *)
Definition writable (m : message) : Prop :=
  exists L, forall buf, (L <= length buf -> exists out, write_any m buf = (Ok L, out)) /\
                        (length buf < L -> exists out, write_any m buf = (Err NoSpace, out)).
Lemma exact_writable m enc : writes_exactly (write_any m) (fun e => e = NoSpace) enc -> writable m.
Proof.
  intros W. exists (length enc). intros buf. destruct (W buf) as [W1 W2]. split; intros L.
  - rewrite W1 by auto. eauto.
  - destruct (W2 L) as (e & k' & -> & _ & ->). eauto.
Qed.
(** An accepted message is writable in exactly these cases; in all others no
    buffer is large enough. *)
Theorem C58_writable_iff k ds ss sr body m : 1 <= NUM_SLOTS <= 8 -> bytes body -> parse_any k ds ss sr body = Ok m ->
  (can_be_written m -> writable m) /\
  (~ can_be_written m -> forall buf n out, write_any m buf <> (Ok n, out)).
Proof.
  intros NS HB HP. destruct (kind3 k) as [-> | [-> | [K1 K2]]].
  - pose proof HP as HP'. unfold parse_any in HP. apply forget_ok in HP as (a & _ & <-). cbn [can_be_written]. split.
    + intros [W1 W2]. pose proof (C15_challenge_auth_write ds ss a (parsed_ca ds ss sr body a HB HP' W1 W2)) as W.
      eapply exact_writable. cbv [write_any]. eapply classify_writes; [exact W|]. intros e [-> | ->]; reflexivity.
    + intros NW buf n out HW. apply NW. exact (ca_write_valid a buf n out (parsed_ca_ok ds ss sr body a HB HP') HW).
  - pose proof HP as HP'. unfold parse_any in HP. apply forget_ok in HP as (a & _ & <-). cbn [can_be_written].
    destruct (parsed_meas ds ss sr body a HB HP') as (bl & OK & BB & W). split.
    + intros L. eapply exact_writable. exact (W L).
    + intros NW buf n out HW. revert HW. apply meas_too_large; [apply OK|lia].
  - destruct (parsed_representable _ _ _ _ _ _ NS HB K1 K2 HP) as (E & V). split.
    + intros _. exact (C58_writable k ds ss sr body m NS HB K1 K2 HP).
    + intros X. exfalso. apply X. destruct m; try exact I; exfalso; subst k; [apply K1|apply K2]; reflexivity.
Qed.
End Props.

#[local] Existing Instance sample_cfg.
(** Accepted, surviving values of the two delicate kinds, and a CHALLENGE_AUTH
    for slot NUM_SLOTS, which is accepted but can never be written. *)
Example C58_iff_nonvacuous : 1 <= NUM_SLOTS <= 8 /\
  (exists m, parse_any KChallengeAuth 4 8 true (ca_bytes 5 24 (sample_ca false)) = Ok m /\ survives m /\ can_be_written m) /\
  (exists m, parse_any KMeasurements 4 8 true (meas_bytes 0 3 [sample_block] (sample_meas [sample_block] 8)) = Ok m /\ survives m /\ can_be_written m) /\
  exists body m, parse_any KChallengeAuth 4 8 true body = Ok m /\ ~ can_be_written m.
Proof.
  split; [split; apply Nat.leb_le; reflexivity|]. split; [|split].
  - exists (MChallengeAuth (sample_ca false)). split; [vm_compute; reflexivity|]. split; [reflexivity|]. split; [apply Nat.ltb_lt|apply Nat.leb_le]; reflexivity.
  - exists (MMeasurements (sample_meas [sample_block] 8)). split; [vm_compute; reflexivity|]. split; [split; [discriminate|apply Nat.leb_le; reflexivity]|].
    apply N.ltb_lt. vm_compute. reflexivity.
  - set (c := sample_ca false).
    exists (ca_bytes 0 24 (mkChallengeAuth 5 (ca_slot_mask c) false (ca_cert_chain_hash c) (ca_nonce c) (ca_measurement_summary_hash c) (ca_opaque_data c) (ca_signature c))).
    eexists. split; [vm_compute; reflexivity|]. cbn [can_be_written ca_slot]. intros [X _]. revert X. apply Nat.nlt_ge. apply Nat.leb_le. reflexivity.
Qed.
Print Assumptions C58_reencoded_iff.
Print Assumptions C58_writable_iff.
