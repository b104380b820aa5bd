(** C51, C52: the success of every call is characterised exactly: the responder
    answers, and the requester sends and accepts, precisely the exchanges of the
    specification that fit the buffers. *)
From Verif Require Import Base BaseLemmas Config Encoding MsgCommon MsgVersion MsgCapabilities MsgAlgorithms MsgDigest
     MsgCertificates MsgChallenge MsgError Transcript Crypto Responder Requester SpecWire SpecMsgs SpecResponder SpecRequester
     PropTools PropTranscript RspParts RspStep PropResponder PropRspState PropRspAns ReqStep ReqMsg PropRequester PropReqState Functional Sample SampleRun SampleReq.

Section PropExact.
Context {cfg : Config} {cr : Crypto}.

(** The relations of the specification allow at most one outcome. *)
Theorem C51_specification_determines slots rnd req st log out1 st1 log1 out2 st2 log2 : setting slots -> bytes req -> rnd_ok rnd ->
  served slots rnd req st log out1 st1 log1 -> served slots rnd req st log out2 st2 log2 ->
  out1 = out2 /\ st1 = st2 /\ log1 = log2.
Proof. apply served_unique. Qed.
Theorem C52_specification_determines root fresh st log : req_setting ->
  (forall out1 st1 log1 out2 st2 log2, requested fresh st log out1 st1 log1 -> requested fresh st log out2 st2 log2 ->
   out1 = out2 /\ st1 = st2 /\ log1 = log2) /\
  (forall rsp st1 log1 st2 log2, bytes rsp -> st_ok st -> accepted root rsp st log st1 log1 -> accepted root rsp st log st2 log2 ->
   st1 = st2 /\ log1 = log2).
Proof. intros HS. split; intros; [eapply requested_unique; eauto|eapply accepted_unique; eauto]. Qed.
(** A responder with any history answers [out], going to state [st'] with log
    [log'], exactly when the specification says so and there is room. *)
Theorem C51_responder_answers_iff slots R rnd req rsp out rsp' st' log' :
  setting slots -> reached slots R -> bytes req -> rnd_ok rnd ->
  (exists R', responder_handle_msg R rnd req rsp = (Replied out (Ok tt), rsp', R') /\
     rsp_state R' = Some st' /\ t_get (rsp_transcript R') = log') <->
  (exists st, rsp_state R = Some st /\ served slots rnd req st (t_get (rsp_transcript R)) out st' log' /\
     length out <= length rsp /\ length log' <= TRANSCRIPT_SIZE /\ rsp' = out ++ skipn (length out) rsp).
Proof.
  intros HS HR HB RK. split.
  - intros (R' & H & E1 & E2).
    destruct (step_sound slots R rnd req rsp out rsp' R' HS HR HB RK H) as (st & st1 & log1 & A1 & A2 & A3 & A4 & A5 & A6 & A7).
    rewrite E1 in A2. injection A2 as <-. rewrite E2 in A3. subst log1. exists st. auto.
  - intros (st & E1 & SV & L1 & L2 & ->).
    destruct (step_complete slots R rnd req rsp st out st' log' HS HR HB RK E1 SV L1 L2) as (R' & H & E2 & E3). eauto.
Qed.

(** next_request of a requester with any history writes [out] exactly when the
    specification says so and there is room. *)
Theorem C52_requester_sends_iff root ev R fresh buf out buf' st' log' :
  req_setting -> req_session root ev R -> fresh_ok fresh ->
  (exists R', requester_next_request R fresh buf = (Ok out, buf', R') /\
     req_state R' = Some st' /\ t_get (req_transcript R') = log') <->
  (exists st, req_state R = Some st /\ requested fresh st (t_get (req_transcript R)) out st' log' /\
     length out <= length buf /\ length log' <= TRANSCRIPT_SIZE /\ buf' = out ++ skipn (length out) buf).
Proof.
  intros HS HR FO. destruct (session_now _ _ _ HS HR) as (st0 & NW).
  assert (W : t_wf (req_transcript R)) by apply NW. split.
  - intros (R' & H & E1 & E2).
    destruct (next_sound R fresh buf out buf' R' W H) as (st & st1 & log1 & A1 & A2 & A3 & A4 & A5 & A6 & A7 & A8 & _).
    rewrite E1 in A7. injection A7 as <-. rewrite E2 in A8. subst log1. exists st. auto.
  - intros (st & E1 & RQ & L1 & L2 & ->).
    destruct (next_complete R st fresh buf out st' log' W E1 RQ L1 L2) as (R' & H & _ & E2 & E3 & _). eauto.
Qed.

(** handle_msg of a requester with any history accepts [rsp] exactly when the
    specification says so and the transcript has room; it reports completion
    exactly when the session state is reached. *)
Theorem C52_requester_accepts_iff root ev R rsp b st' log' :
  req_setting -> req_session root ev R -> bytes rsp ->
  (exists R', requester_handle_msg R rsp = (Ok b, R') /\
     req_state R' = Some st' /\ t_get (req_transcript R') = log') <->
  (exists st, req_state R = Some st /\ accepted root rsp st (t_get (req_transcript R)) st' log' /\
     length log' <= TRANSCRIPT_SIZE /\ (b = true <-> st' = ReqNewSession)).
Proof.
  intros HS HR HB. destruct (session_now _ _ _ HS HR) as (st0 & NW).
  assert (W : t_wf (req_transcript R)) by apply NW. assert (ES : req_state R = Some st0) by apply NW.
  assert (SO : st_ok st0) by apply NW. assert (ER : req_root R = root) by apply NW. split.
  - intros (R' & H & E1 & E2).
    destruct (handle_sound R rsp b R' st0 HB HS ES SO W H) as (st1 & A1 & A2 & A3 & A4 & A5).
    rewrite E1 in A1. injection A1 as <-. rewrite E2, ER in A5. exists st0. split; [auto|]. split; [auto|]. split; [|auto].
    rewrite <- E2, t_get_length by auto. apply A4.
  - intros (st & E1 & AC & L & B). rewrite ES in E1. injection E1 as <-. rewrite <- ER in AC.
    destruct (handle_complete R rsp st0 st' log' HB HS ES SO W AC L) as (R' & H & E2 & _ & _ & E3).
    exists R'. split; [|auto]. rewrite H. do 2 f_equal. destruct b, st'; try reflexivity; exfalso.
    all: first [discriminate (proj1 B eq_refl) | discriminate (proj2 B eq_refl)].
Qed.
End PropExact.

#[local] Existing Instance sample_cfg.
#[local] Existing Instance sample_crypto.
(** Both sides of the equivalence hold of the challenge of the sample run, and
    neither holds of the same challenge for an empty slot. *)
Example C51_example : setting sample_slots /\ reached sample_slots (served_R (firstn 5 sample_requests)) /\
  bytes (sample_request 5) /\ rnd_ok (sample_rnd 1) /\
  (exists s out st' log', rsp_state (served_R (firstn 5 sample_requests)) = Some (RspChallenge s) /\
     served sample_slots (sample_rnd 1) (sample_request 5) (RspChallenge s)
       (t_get (rsp_transcript (served_R (firstn 5 sample_requests)))) out st' log') /\
  exists rsp' R', responder_handle_msg (served_R (firstn 5 sample_requests)) (sample_rnd 1) (upd (sample_request 5) 2 1%N) big_buf
    = (Replied [0x12; 0x7F; 1; 0]%N (Err RspInvalidSlot), rsp', R').
Proof.
  destruct C31_example as (HR & HB & _ & s & ES & out & rsp' & R' & H).
  assert (RK : rnd_ok (sample_rnd 1)) by (split; [reflexivity|apply bytes_repeat; reflexivity]).
  refine (conj sample_setting (conj HR (conj HB (conj RK (conj _ _))))).
  - destruct (step_sound sample_slots _ _ _ _ _ _ _ sample_setting HR HB RK H)
      as (st & st' & log' & A1 & A2 & A3 & A4 & _).
    rewrite ES in A1. injection A1 as <-. exists s, out, st', log'. split; [exact ES|exact A4].
  - eexists _, _. vm_compute. reflexivity.
Qed.
(** The last exchange of the sample run: the challenge is sent, its response is
    accepted and completes the session; with one byte less it is not. *)
Example C52_example : req_setting /\ req_session [1; 2; 3]%N (driven_ev 5) (driven_R 5) /\
  (exists st out st' log', req_state (driven_R 5) = Some st /\
     requested (repeat 7%N 32) st (t_get (req_transcript (driven_R 5))) out st' log' /\ length out = 36) /\
  exists R1 st log', req_session [1; 2; 3]%N (driven_ev 5 ++ [Sent (challenge_msg 0 (repeat 7%N 32))]) R1 /\ req_state R1 = Some st /\
     accepted [1; 2; 3]%N (sample_response 5) st (t_get (req_transcript R1)) ReqNewSession log' /\
     exists e R2, requester_handle_msg R1 (removelast (sample_response 5)) = (Err e, R2).
Proof.
  destruct C38_example as (HS & HR & FO & HB & out & buf' & R1 & R2 & H1 & H2 & _).
  assert (HR1 := req_session_sent _ _ _ _ _ _ _ _ HR FO H1).
  assert (EO : out = challenge_msg 0 (repeat 7%N 32)).
  { assert (X : Ok out = fst (fst (requester_next_request (driven_R 5) (repeat 7%N 32) big_buf))) by (now rewrite H1).
    vm_compute in X. injection X as ->. vm_compute. reflexivity. }
  refine (conj HS (conj HR (conj _ _))).
  - destruct (session_now _ _ _ HS HR) as (st0 & NW). assert (W : t_wf (req_transcript (driven_R 5))) by apply NW.
    destruct (next_sound _ _ _ _ _ _ W H1) as (st & st1 & log1 & A1 & A2 & _). exists st, out, st1, log1.
    split; [exact A1|]. split; [exact A2|]. rewrite EO. vm_compute. reflexivity.
  - subst out. exists R1. destruct (req_state R1) as [st|] eqn:ES.
    2: { destruct (session_now _ _ _ HS HR1) as (st0 & NW). exfalso. assert (X : req_state R1 = Some st0) by apply NW. congruence. }
    assert (E2 : exists st2, req_state R2 = Some st2 /\ st2 = ReqNewSession).
    { destruct (session_now _ _ _ HS HR1) as (st0 & NW). assert (ES0 : req_state R1 = Some st0) by apply NW.
      assert (SO : st_ok st0) by apply NW. assert (W : t_wf (req_transcript R1)) by apply NW.
      destruct (handle_sound R1 _ _ _ st0 HB HS ES0 SO W H2) as (st1 & A1 & A2 & A3 & _).
      exists st1. split; [exact A1|]. now apply A2. }
    destruct E2 as (st2 & E2 & ->).
    destruct (proj1 (C52_requester_accepts_iff _ _ R1 (sample_response 5) true ReqNewSession (t_get (req_transcript R2)) HS HR1 HB))
      as (st0 & B1 & B2 & _). { exists R2. auto. }
    rewrite ES in B1. injection B1 as <-. exists st, (t_get (req_transcript R2)).
    refine (conj HR1 (conj eq_refl (conj B2 _))).
    replace R1 with (snd (requester_next_request (driven_R 5) (repeat 7%N 32) big_buf)) by (now rewrite H1).
    eexists _, _. vm_compute. reflexivity.
Qed.
