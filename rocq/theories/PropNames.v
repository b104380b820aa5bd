(** C81: the name of the state tells which message was handled last. *)
From Verif Require Import Base BaseLemmas Config Encoding MsgCommon MsgVersion MsgCapabilities MsgAlgorithms MsgDigest MsgCertificates
     MsgChallenge MsgError Transcript Crypto Responder Requester SpecWire SpecMsgs SpecResponder SpecRequester SpecReport PropTools
     PropTranscript RspParts RspStep PropResponder ReqMsg ReqStep PropRequester PropRspState PropReqState PropReqVerdict
     Sample SampleRun SampleReq.
Local Open Scope string_scope.

(** After a request with this code ([None]: after none) a responder shows this name. *)
Inductive rsp_named : option N -> string -> Prop :=
| rn_none : rsp_named None "Version"
| rn_version : rsp_named (Some 0x84%N) "Capabilities"
| rn_capabilities : rsp_named (Some 0xE1%N) "Algorithms"
| rn_algorithms : rsp_named (Some 0xE3%N) "IdAuth"
| rn_digests : rsp_named (Some 0x81%N) "IdAuth"
| rn_certificate : rsp_named (Some 0x82%N) "Challenge"
| rn_challenge : rsp_named (Some 0x83%N) "Challenge".
(** After a response with this code a requester shows this name, or "NewSession" if
    nothing more is to be asked. *)
Inductive req_named : option N -> string -> Prop :=
| qn_none : req_named None "Version"
| qn_version : req_named (Some 0x04%N) "Capabilities"
| qn_capabilities : req_named (Some 0x61%N) "Algorithms"
| qn_algorithms : req_named (Some 0x63%N) "IdAuth"
| qn_digests : req_named (Some 0x01%N) "IdAuth"
| qn_certificate : req_named (Some 0x02%N) "Challenge"
| qn_complete c : In c [0x63; 0x02; 0x03]%N -> req_named (Some c) "NewSession".
Definition last_code (msgs : list (list N)) : option N := match rev msgs with [] => None | m :: _ => Some (code m) end.

Section Names.
Context {cfg : Config} {cr : Crypto}.
Lemma last_code_app l m : last_code (l ++ [m]) = Some (code m).
Proof. unfold last_code. now rewrite rev_app_distr. Qed.

Theorem C81_responder_name slots ex R : setting slots -> session slots ex R ->
  exists st, rsp_state R = Some st /\ rsp_named (last_code (map fst ex)) (rsp_state_name st).
Proof.
  intros HS H. induction H as [|R HR|ex R rnd req rsp out rsp' R' H IH HB RK HH].
  - exists RspVersion. split; [reflexivity|]. constructor.
  - exists RspVersion. split; [reflexivity|]. constructor.
  - destruct (step_sound slots R rnd req rsp out rsp' R' HS (PropResponder.session_reached _ _ _ H) HB RK HH)
      as (st & st' & log' & E1 & E2 & _ & SV & _).
    exists st'. split; [exact E2|]. rewrite map_app. cbn [map fst]. rewrite last_code_app.
    destruct SV as [st log NE (r & ->) | s log ct flags own out (r & ->) | s log body na al es fs out (r & ->)
    | s log mask out (r & ->) | s log slot off len out (r & ->) | s log slot t nonce mask filled ss sg out (r & ->)]; constructor.
Qed.

Lemma accepted_name root rsp st log st' log' : accepted root rsp st log st' log' -> req_named (Some (code rsp)) (req_state_name st').
Proof.
  intros A. destruct A as [log es v (r & E1) F LE HC|s log oct own ct fl Q1 Q2 (r & E1) FB
    |s log na es al fs body st' EN N1 N2 (r & E1) FM N3 A3 SE ->
    |s log d ED KH DL L (r & E1) DO|s log c portion st' ED (r & E1) CH ->
    |s log m rsvd olen ss portion chain log' U HS1 HS2 IA (r & E1)]; subst rsp.
  all: try constructor; try (destruct (both _ _ _); constructor); cbn; auto.
Qed.
Lemma same_state_name st st' : same_state st st' -> req_state_name st' = req_state_name st.
Proof. destruct st, st'; try contradiction; reflexivity. Qed.
Lemma next_name R fresh buf r buf' R' st : requester_next_request R fresh buf = (r, buf', R') -> req_state R = Some st ->
  exists st', req_state R' = Some st' /\ req_state_name st' = req_state_name st.
Proof.
  intros E ES. destruct (C41_next_keeps_state _ _ _ _ _ _ E) as [_ K]. rewrite ES in K. destruct (req_state R') as [st'|]; [|contradiction].
  exists st'. split; [reflexivity|]. now apply same_state_name.
Qed.
Theorem C81_requester_name root ev R : req_setting -> req_session root ev R ->
  exists st, req_state R = Some st /\ req_named (last_code (received ev)) (req_state_name st) /\
    (req_state_name st = "NewSession" <-> forall fresh buf, requester_next_request R fresh buf = (Err ReqInitializationComplete, buf, R)).
Proof.
  intros HS H.
  enough (G : exists st, req_state R = Some st /\ req_named (last_code (received ev)) (req_state_name st)).
  { destruct G as (st & ES & N). exists st. split; [exact ES|]. split; [exact N|]. split.
    - intros EN fresh buf. unfold requester_next_request. rewrite ES. destruct st; try discriminate. reflexivity.
    - intros HN. destruct (C41_complete_meaning _ _ _ _ _ (HN [] [])) as (X & _). rewrite ES in X. injection X as ->. reflexivity. }
  induction H as [|ev R fresh buf out buf' R' H IH FR E|ev R fresh buf e buf' R' H IH FR E|ev R rsp b R' H IH HB E].
  - exists ReqVersion. split; [reflexivity|]. constructor.
  - destruct IH as (st & ES & N). destruct (next_name _ _ _ _ _ _ _ E ES) as (st' & ES' & EN). exists st'. split; [exact ES'|].
    unfold received in *. rewrite flat_map_app. cbn [flat_map app]. rewrite app_nil_r, EN. exact N.
  - destruct IH as (st & ES & N). destruct (next_name _ _ _ _ _ _ _ E ES) as (st' & ES' & EN). exists st'. split; [exact ES'|].
    rewrite EN. exact N.
  - destruct (session_now root ev R HS H) as (st & ER & ES & W & SO & _).
    destruct (handle_sound R rsp b R' st HB HS ES SO W E) as (st' & ES' & _ & _ & _ & A). exists st'. split; [exact ES'|].
    unfold received. rewrite flat_map_app. cbn [flat_map app]. rewrite last_code_app. eapply accepted_name; eauto.
Qed.
End Names.

#[local] Existing Instance sample_cfg.
#[local] Existing Instance sample_crypto.
Lemma sample_names : last_code (map fst (served_ex sample_twice)) = Some 0x83%N /\
  option_map rsp_state_name (rsp_state (served_R sample_twice)) = Some "Challenge".
Proof. vm_compute. split; reflexivity. Qed.
Lemma driven_names : last_code (received (driven_ev 6)) = Some 0x03%N /\
  option_map req_state_name (req_state (driven_R 6)) = Some "NewSession".
Proof. vm_compute. split; reflexivity. Qed.
Example C81_names_example :
  session sample_slots (served_ex sample_twice) (served_R sample_twice) /\
  (last_code (map fst (served_ex sample_twice)) = Some 0x83%N /\ option_map rsp_state_name (rsp_state (served_R sample_twice)) = Some "Challenge") /\
  req_session [1; 2; 3]%N (driven_ev 6) (driven_R 6) /\
  (last_code (received (driven_ev 6)) = Some 0x03%N /\ option_map req_state_name (req_state (driven_R 6)) = Some "NewSession").
Proof. exact (conj sample_twice_session (conj sample_names (conj (driven_session 6 (le_n 6)) driven_names))). Qed.
Print Assumptions C81_responder_name.
Print Assumptions C81_requester_name.
