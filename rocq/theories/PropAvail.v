(** C66: a responder stays available: whatever was done with it before, an honest
    requester completes with it, and this again and again. *)
From Verif Require Import Base BaseLemmas Config ConfigBuild Encoding MsgCommon MsgVersion MsgCapabilities MsgAlgorithms MsgDigest
     MsgCertificates MsgChallenge MsgError Transcript Crypto Responder Requester SpecWire SpecMsgs SpecResponder SpecRequester SpecAgree
     ReqStep PropTools PropTranscript PropReqPanic PropResponder PropRspState PropReqState PropAgree Sample SampleRun SampleReq.

Section Avail.
Variables (cq : Config) (kq : Crypto) (cr : Config) (kr : Crypto).

(** A run over a faithful transport of a new requester with the responder [R0]. *)
Inductive faithful_from (root : list N) (R0 : Responder)
  : list step_input -> list (list N * list N) -> bool -> Requester -> Responder -> Prop :=
| faithful_from_start : faithful_from root R0 [] [] false (@requester_new cq root) R0
| faithful_from_step ins ex Q R i req out b Q' R' :
    faithful_from root R0 ins ex false Q R -> exchanged cq kq cr kr i Q R req out b Q' R' ->
    faithful_from root R0 (ins ++ [i]) (ex ++ [(req, out)]) b Q' R'.

(** Everything succeeds, in exactly the number of exchanges which the announced
    capabilities require; equal transcripts; agreement. *)
Definition completes (root : list N) (ownq ownr : N) (R0 : Responder) (ins : list step_input) (R : Responder) : Prop :=
  exists ex Q, faithful_from root R0 ins ex true Q R /\
    t_get (req_transcript Q) = t_get (rsp_transcript R) /\
    req_state Q = Some ReqNewSession /\
    rsp_state R = Some (if both cert_bit ownq ownr then RspChallenge (mkRspId 12 ownq 12 ownr agreed_algorithms)
                        else RspIdAuth (mkRspId 12 ownq 12 ownr agreed_algorithms)) /\
    @told_algorithms cq kq (mkVE 1 1 0 0) ownq 12 ownr agreed_algorithms (as_events (firstn 3 ex)).

Lemma first_exchange root slots R0 i req out b Q' R' st : @setting cr kr slots -> @reached cr kr slots R0 ->
  rsp_state R0 = Some st -> st <> RspError -> @rnd_ok (in_rnd i) ->
  exchanged cq kq cr kr i (@requester_new cq root) (@responder_new cr slots) req out b Q' R' ->
  exists R1, exchanged cq kq cr kr i (@requester_new cq root) R0 req out b Q' R1 /\ @rsim cr R' R1.
Proof.
  intros HS HR ES NE RK (BQ & BR & Q1 & qb & rb & E1 & E2 & E3).
  assert (RN : @reached cr kr slots (@responder_new cr slots)) by (exists []; split; [constructor|reflexivity]).
  destruct (@next_sound cq kq (@requester_new cq root) _ _ _ _ _ (@t_new_wf cq) E1) as (st0 & st1 & log1 & S0 & RQ & _).
  cbn [req_state requester_new] in S0. injection S0 as <-. inversion RQ; subst; clear RQ.
  assert (HB : bytes get_version_bytes) by (apply bytes_check; reflexivity).
  destruct (@step_sound cr kr slots _ _ _ _ _ _ _ HS RN HB RK E2) as (s0 & s1 & lg & X0 & X1 & X2 & SV & LO & _ & LT).
  cbn [rsp_state responder_new] in X0. injection X0 as <-. inversion SV; subst; try (match goal with H : starts_with _ get_version_bytes |- _ => destruct H as (? & H); discriminate end).
  destruct (@C24_get_version_restarts cr kr slots R0 (in_rnd i) get_version_bytes (in_rspbuf i) st HS HR HB RK ES NE) as (R1 & F1 & F2 & F3).
  { exists []. reflexivity. } { exact LO. } { match goal with H : _ = t_get (rsp_transcript R') |- _ => rewrite <- H in LT end. now rewrite app_length in LT. }
  exists R1. split.
  - split; [exact BQ|]. split; [exact BR|]. exists Q1. eexists. eexists. split; [exact E1|]. split; [exact F1|exact E3].
  - destruct (@reached_ok cr kr slots R1) as [G1 G2]; [eapply (@reached_handle cr kr); [exact HR|exact HB|exact RK|exact F1]|].
    destruct (@reached_ok cr kr slots R') as [H1 H2]; [eapply (@reached_handle cr kr); [exact RN|exact HB|exact RK|exact E2]|].
    split; [now rewrite G1, H1|]. split; [now rewrite F2, X1|]. split; [exact H2|]. split; [exact G2|]. rewrite F3. symmetry. assumption.
Qed.
Lemma moved root slots R0 st : @setting cr kr slots -> @reached cr kr slots R0 ->
  rsp_state R0 = Some st -> st <> RspError ->
  forall ins ex b Q R, faithful cq kq cr kr root slots ins ex b Q R -> Forall (fun i => @rnd_ok (in_rnd i)) ins ->
  exists R', faithful_from root R0 ins ex b Q R' /\
    match ins with [] => Q = @requester_new cq root /\ R = @responder_new cr slots /\ R' = R0 | _ => @rsim cr R R' end.
Proof.
  intros HS HR ES NE ins ex b Q R F. induction F as [|ins ex Q R i req out b Q' R' F IH X]; intros RK.
  - exists R0. split; [constructor|auto].
  - apply Forall_app in RK as [RK RI]. inversion RI as [|? ? RI' _]; subst. destruct (IH RK) as (R1 & F1 & M1). destruct ins as [|i0 ins].
    + destruct M1 as (-> & -> & ->). destruct (first_exchange root slots R0 i req out b Q' R' st HS HR ES NE RI' X) as (R2 & X2 & M2).
      exists R2. split; [econstructor; eauto|exact M2].
    + destruct X as (BQ & BR & Q1 & qb & rb & E1 & E2 & E3). pose proof (@rsim_handle cr kr R R1 (in_rnd i) req (in_rspbuf i) M1) as [G1 G2].
      rewrite E2 in G1, G2. cbn [fst snd] in G1, G2.
      destruct (@responder_handle_msg cr kr R1 (in_rnd i) req (in_rspbuf i)) as [[rp rb2] R2] eqn:E4. cbn [fst snd] in G1, G2. injection G1 as <- <-.
      exists R2. split; [|exact G2]. econstructor; [exact F1|]. split; [exact BQ|]. split; [exact BR|]. exists Q1. eexists. eexists. split; [exact E1|]. split; [exact E4|exact E3].
Qed.

Lemma reached_from root slots R0 : @reached cr kr slots R0 -> forall ins ex b Q R, faithful_from root R0 ins ex b Q R ->
  Forall (fun i => @rnd_ok (in_rnd i)) ins -> @reached cr kr slots R.
Proof.
  intros HR ins ex b Q R F. induction F as [|ins ex Q R i req out b Q' R' F IH X]; intros RK; [exact HR|].
  apply Forall_app in RK as [RK RI]. inversion RI as [|? ? RI' _]; subst. destruct X as (BQ & _ & Q1 & qb & rb & _ & E2 & _).
  eapply (@reached_handle cr kr); [exact (IH RK)|exact BQ|exact RI'|exact E2].
Qed.

(** Whatever calls were made before, an honest requester completes with a
    responder that is not stuck in its error state. *)
Theorem C66_available root slots ownq ownr f R0 st ins :
  honest cq kq cr kr root slots ownq ownr f -> @reached cr kr slots R0 -> rsp_state R0 = Some st -> st <> RspError ->
  Forall (input_ok (260 + length (chain_bytes (fs_chain f)))) ins -> length ins = rounds ownq ownr ->
  exists R, completes root ownq ownr R0 ins R /\ @reached cr kr slots R.
Proof.
  intros HH HR ES NE FA LN. destruct (C39_honest_run cq kq cr kr root slots ownq ownr f ins HH FA LN) as (ex & Q & R & F & T & S1 & S2 & TA & _).
  assert (HS : @setting cr kr slots).
  { destruct HH as ([] & _). split; [auto|]. split; [|auto]. destruct (@built_facts cr kr honest_built_r). lia. }
  destruct (moved root slots R0 st HS HR ES NE ins ex true Q R F) as (R' & F' & M).
  { eapply Forall_impl; [|exact FA]. intros i (_ & X & _). exact X. }
  assert (M' : @rsim cr R R'). { destruct ins; [|exact M]. unfold rounds in LN. destruct (both cert_bit ownq ownr), (both chal_bit ownq ownr); discriminate. }
  exists R'. split.
  - exists ex, Q. destruct M' as (_ & M1 & _ & _ & M2). split; [exact F'|]. split; [congruence|]. split; [exact S1|]. split; [congruence|exact TA].
  - eapply reached_from; eauto. eapply Forall_impl; [|exact FA]. intros i (_ & X & _). exact X.
Qed.
(** The condition is necessary: after one refused request the responder completes
    with nobody until it is reset (it panics at the next message, whatever it is). *)
Theorem C66_condition_needed root slots ownq ownr R0 ins R :
  @reached cr kr slots R0 -> rsp_state R0 = Some RspError \/ rsp_state R0 = None -> ~ completes root ownq ownr R0 ins R.
Proof.
  intros _ ES (ex & Q & F & _).
  assert (X : forall ins ex b Q R, faithful_from root R0 ins ex b Q R -> ins = [] /\ b = false /\ R = R0).
  { clear F. intros ins0 ex0 b Q0 R1 F. induction F as [|ins0 ex0 Q0 R1 i req out b Q' R' F IH X]; [auto|]. exfalso.
    destruct IH as (_ & _ & ->). destruct X as (_ & _ & Q1 & qb & rb & _ & E2 & _). unfold responder_handle_msg in E2.
    destruct ES as [ES|ES]; rewrite ES in E2; [|discriminate]. cbn in E2. discriminate. }
  destruct (X _ _ _ _ _ F) as (_ & D & _). discriminate.
Qed.
(** After a call of reset this holds without any condition on the state. *)
Theorem C66_available_after_reset root slots ownq ownr f R0 ins :
  honest cq kq cr kr root slots ownq ownr f -> @reached cr kr slots R0 ->
  Forall (input_ok (260 + length (chain_bytes (fs_chain f)))) ins -> length ins = rounds ownq ownr ->
  exists R, completes root ownq ownr (responder_reset R0) ins R /\ @reached cr kr slots R.
Proof.
  intros HH HR. apply (C66_available root slots ownq ownr f _ RspVersion); [exact HH| |reflexivity|discriminate].
  exact (@reached_step cr kr slots R0 CallReset HR I).
Qed.
(** Sessions with new requesters one after the other. *)
Inductive many (root : list N) (ownq ownr : N) (R0 : Responder) : list (list step_input) -> Responder -> Prop :=
| many_none : many root ownq ownr R0 [] R0
| many_more runs R1 ins R : many root ownq ownr R0 runs R1 -> completes root ownq ownr R1 ins R ->
    many root ownq ownr R0 (runs ++ [ins]) R.
Theorem C66_forever root slots ownq ownr f R0 st runs :
  honest cq kq cr kr root slots ownq ownr f -> @reached cr kr slots R0 -> rsp_state R0 = Some st -> st <> RspError ->
  Forall (fun ins => Forall (input_ok (260 + length (chain_bytes (fs_chain f)))) ins /\ length ins = rounds ownq ownr) runs ->
  exists R, many root ownq ownr R0 runs R.
Proof.
  intros HH HR ES NE FA.
  enough (X : exists R, many root ownq ownr R0 runs R /\ @reached cr kr slots R /\ exists st, rsp_state R = Some st /\ st <> RspError).
  { destruct X as (R & X & _). eauto. }
  induction runs as [|ins runs IH] using rev_ind. { exists R0. split; [constructor|eauto]. }
  apply Forall_app in FA as [FA FI]. inversion FI as [|? ? [I1 I2] _]; subst. destruct (IH FA) as (R1 & M & RR & st1 & E1 & N1).
  destruct (C66_available root slots ownq ownr f R1 st1 ins HH RR E1 N1 I1 I2) as (R2 & CO & R3).
  exists R2. split; [|split; [exact R3|]].
  - econstructor; [exact M|exact CO].
  - destruct CO as (ex & Q & _ & _ & _ & E & _). rewrite E. eexists. split; [reflexivity|]. destruct (both cert_bit ownq ownr); discriminate.
Qed.
End Avail.

(** Beside C39_example (the honest pair): a responder in the middle of a session,
    and one that refused a request. *)
#[local] Existing Instance sample_cfg.
#[local] Existing Instance sample_crypto.
Example C66_example :
  (reached sample_slots (served_R sample_twice) /\ exists s, rsp_state (served_R sample_twice) = Some (RspChallenge s)) /\
  (exists R, reached sample_slots R /\ rsp_state R = Some RspError).
Proof.
  split; [exact (conj (proj1 (proj2 C24_example)) (proj2 (proj2 (proj2 (proj2 (proj2 (proj2 (proj2 C24_example))))))))|].
  destruct (responder_handle_msg sample_r0 (sample_rnd 1) (sample_request 3) big_buf) as [[a b] R] eqn:E. exists R. split.
  - eapply reached_handle; [exists []; split; [constructor|reflexivity]| | |exact E].
    + apply bytes_check. vm_compute. reflexivity.
    + split; [apply repeat_length|now apply bytes_repeat].
  - replace R with (snd (responder_handle_msg sample_r0 (sample_rnd 1) (sample_request 3) big_buf)) by (rewrite E; reflexivity). vm_compute. reflexivity.
Qed.
Print Assumptions C66_available.
Print Assumptions C66_available_after_reset.
Print Assumptions C66_condition_needed.
Print Assumptions C66_forever.
