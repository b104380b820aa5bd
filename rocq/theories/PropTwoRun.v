(** C79: what a requester sends depends on nothing but its configuration, the
    phase of the protocol, its own nonce and, in CHALLENGE, the slot number
    received.  C80: what a responder answers depends on nothing but its slots, the
    request, what was negotiated and, in CHALLENGE_AUTH, its nonce and the log
    signed; after GET_VERSION nothing of earlier sessions is left. *)
From Verif Require Import Base BaseLemmas Config Encoding MsgCommon MsgVersion MsgCapabilities MsgAlgorithms MsgDigest
     MsgCertificates MsgChallenge MsgError Transcript Crypto Responder Requester SpecWire SpecMsgs SpecResponder SpecRequester SpecReqVerdict
     PropTools PropTranscript PropGeneric RspParts RspStep PropResponder PropRspState ReqStep ReqMsg PropRequester PropReqState PropReqVerdict Functional
     Sample SampleRun SampleReq PropRepeat.

#[local] Opaque chain_bytes.
#[local] Arguments Nat.leb : simpl never.

(** * C79 *)
(** The slot the peer named in its CERTIFICATE response. *)
Definition slot_told (st : ReqStates) : option N := match st with ReqChallenge s => Some (qh_cert_slot s) | _ => None end.

(** * C80 *)
Section PropTwoRun.
Context {cfg : Config} {cr : Crypto}.

(** Two requesters, with any roots and histories, waiting for the same message
    (and told the same slot): whatever else their peers said, they send the same. *)
Theorem C79_same_requests root1 root2 Q1 Q2 st1 st2 fresh buf1 buf2 out1 out2 b1 b2 Q1' Q2' : req_setting ->
  req_reached root1 Q1 -> req_reached root2 Q2 -> req_state Q1 = Some st1 -> req_state Q2 = Some st2 ->
  awaits st1 = awaits st2 -> slot_told st1 = slot_told st2 ->
  requester_next_request Q1 fresh buf1 = (Ok out1, b1, Q1') -> requester_next_request Q2 fresh buf2 = (Ok out2, b2, Q2') ->
  out1 = out2.
Proof.
  intros HS H1 H2 E1 E2 EA ET X1 X2.
  assert (N1 : st1 <> ReqError) by (intros ->; unfold requester_next_request in X1; rewrite E1 in X1; discriminate).
  assert (N2 : st2 <> ReqError) by (intros ->; unfold requester_next_request in X2; rewrite E2 in X2; discriminate).
  destruct (reached_inv root1 Q1 st1 HS H1 E1 N1) as (_ & W1 & _). destruct (reached_inv root2 Q2 st2 HS H2 E2 N2) as (_ & W2 & _).
  destruct (next_sound Q1 fresh buf1 out1 b1 Q1' W1 X1) as (s1 & s1' & l1 & F1 & R1 & _).
  destruct (next_sound Q2 fresh buf2 out2 b2 Q2' W2 X2) as (s2 & s2' & l2 & F2 & R2 & _).
  rewrite E1 in F1. injection F1 as <-. rewrite E2 in F2. injection F2 as <-.
  destruct R1 as [la|s la own o G1 G2 ->|s la na o G1 ->|s la o G1 ->|s la o G1 G2 ->|s la o ->];
    destruct R2 as [lb|t lb own' p K1 K2 ->|t lb na' p K1 ->|t lb p K1 ->|t lb p K1 K2 ->|t lb p ->]; cbn [awaits] in EA;
    try (rewrite G1 in EA); try (rewrite K1 in EA); try discriminate; try reflexivity;
    repeat match type of EA with context [match ?x with _ => _ end] => destruct x end; try congruence.
  - assert (own = own') by (eapply flags_unique; eauto). now subst.
  - assert (na = na') by (eapply own_offer_unique; eauto). now subst.
  - cbn [slot_told] in ET. injection ET as ->. reflexivity.
Qed.
(** The nonce is used in CHALLENGE only. *)
Theorem C79_nonce_only_in_challenge root Q st fresh1 fresh2 buf1 buf2 out1 out2 b1 b2 Q1 Q2 : req_setting ->
  req_reached root Q -> req_state Q = Some st -> slot_told st = None ->
  requester_next_request Q fresh1 buf1 = (Ok out1, b1, Q1) -> requester_next_request Q fresh2 buf2 = (Ok out2, b2, Q2) ->
  out1 = out2.
Proof.
  intros HS H1 E1 ET X1 X2.
  assert (N1 : st <> ReqError) by (intros ->; unfold requester_next_request in X1; rewrite E1 in X1; discriminate).
  destruct (reached_inv root Q st HS H1 E1 N1) as (_ & W1 & _).
  destruct (next_sound Q fresh1 buf1 out1 b1 Q1 W1 X1) as (s1 & s1' & l1 & F1 & R1 & _).
  destruct (next_sound Q fresh2 buf2 out2 b2 Q2 W1 X2) as (s2 & s2' & l2 & F2 & R2 & _).
  rewrite E1 in F1. injection F1 as <-. rewrite E1 in F2. injection F2 as <-.
  destruct R1 as [la|s la own o G1 G2 ->|s la na o G1 ->|s la o G1 ->|s la o G1 G2 ->|s la o ->];
    inversion R2 as [lb|t lb own' p K1 K2 KE|t lb na' p K1 KE|t lb p K1 KE|t lb p K1 K2 KE|t lb p KE]; subst; try congruence; auto.
  - assert (own = own') by (eapply flags_unique; eauto). now subst.
  - assert (na = na') by (eapply own_offer_unique; eauto). now subst.
  - discriminate.
Qed.

(** Two responder states that agree on what later answers may depend on. *)
Definition mutual_of (a b : N) : bool := N.testbit a 8 && N.testbit b 8.
Definition same_view (st1 st2 : RspStates) : Prop :=
  match st1, st2 with
  | RspVersion, RspVersion | RspCapabilities _, RspCapabilities _ => True
  | RspAlgorithms a, RspAlgorithms b => mutual_of (ra_requester_cap a) (ra_responder_cap a) = mutual_of (ra_requester_cap b) (ra_responder_cap b)
  | RspIdAuth a, RspIdAuth b | RspChallenge a, RspChallenge b =>
    al_base_hash (ri_algorithms a) = al_base_hash (ri_algorithms b) /\
    al_base_asym (ri_algorithms a) = al_base_asym (ri_algorithms b) /\ both_mutual a = both_mutual b
  | _, _ => False
  end.
(** [u] is the response [out] without its signature, if it has one. *)
Definition unsigned_part (st : RspStates) (req out u : list N) : Prop :=
  if (code req =? 0x83)%N then u = firstn (length out - negotiated_sig_len st) out else u = out.

(** Whatever is answered in one state is answered in another of the same view. *)
Lemma served_rebase slots rnd1 rnd2 req st1 log1 out st1' log1' st2 log2 : served slots rnd1 req st1 log1 out st1' log1' ->
  code req <> 0x83%N -> same_view st1 st2 -> exists st2' log2', served slots rnd2 req st2 log2 out st2' log2' /\ same_view st1' st2'.
Proof.
  intros S NC SV. destruct S as [st log NE SW | s log ct flags own out SW OB NM FN ->
    | s log body na al es fs out SW NF AC -> | s log mask out SW L MS CF ->
    | s log slot off len out SW L1 L2 L3 CF -> | s log slot t nonce mask filled ss sg out (r & ->) NO NTH CF HU SL LE MS -> SG LS].
  - eexists _, _. split; [apply served_version; auto|exact I]. destruct st, st2; simpl in SV; try contradiction; try discriminate; auto.
  - destruct st2; simpl in SV; try contradiction. eexists _, _. split; [eapply served_capabilities; eauto|]. reflexivity.
  - destruct st2; simpl in SV; try contradiction. eexists _, _. split; [eapply served_algorithms; eauto|].
    cbn [same_view ri_algorithms]. auto.
  - destruct st2; simpl in SV; try contradiction. destruct SV as (V1 & V2 & V3). rewrite V1 in *.
    eexists _, _. split; [eapply served_digests; eauto|]. cbn [same_view]. auto.
  - destruct st2; simpl in SV; try contradiction. eexists _, _. split; [eapply served_certificate; eauto|]. exact SV.
  - exfalso. apply NC. reflexivity.
Qed.
(** The part of the answer that is not a signature is the same, as is the view
    afterwards: for two responders with the same slots, whatever they did before. *)
Theorem C80_same_answers slots R1 R2 st1 st2 rnd req rsp1 rsp2 out1 out2 b1 b2 R1' R2' : setting slots -> reached slots R1 -> reached slots R2 ->
  bytes req -> rnd_ok rnd -> rsp_state R1 = Some st1 -> rsp_state R2 = Some st2 -> same_view st1 st2 ->
  responder_handle_msg R1 rnd req rsp1 = (Replied out1 (Ok tt), b1, R1') -> responder_handle_msg R2 rnd req rsp2 = (Replied out2 (Ok tt), b2, R2') ->
  exists u st1' st2', unsigned_part st1 req out1 u /\ unsigned_part st2 req out2 u /\
    rsp_state R1' = Some st1' /\ rsp_state R2' = Some st2' /\ same_view st1' st2'.
Proof.
  intros HS H1 H2 HB RK E1 E2 SV X1 X2.
  destruct (step_sound slots R1 rnd req rsp1 out1 b1 R1' HS H1 HB RK X1) as (s1 & s1' & l1 & F1 & G1 & _ & S1 & _).
  destruct (step_sound slots R2 rnd req rsp2 out2 b2 R2' HS H2 HB RK X2) as (s2 & s2' & l2 & F2 & G2 & _ & S2 & _).
  rewrite E1 in F1. injection F1 as <-. rewrite E2 in F2. injection F2 as <-. unfold unsigned_part.
  destruct (N.eqb_spec (code req) 0x83) as [C|C].
  - assert (K : forall st log out st' log', served slots rnd req st log out st' log' -> exists s slot t nonce mask sg,
        st = RspChallenge s /\ st' = RspChallenge s /\ starts_with ([0x11; 0x83]%N ++ challenge_layout slot t nonce) req /\ mask_of_slots slots mask /\
        out = unsigned_auth s slots slot mask (wire_nonce (rnd_nonce rnd)) ++ sg /\ length sg = negotiated_sig_len st).
    { intros st log out st' log' S. destruct S as [st log NE (r & ->) | s log ct flags own out (r & ->) OB NM FN ->
        | s log body na al es fs out (r & ->) NF AC -> | s log mask out (r & ->) L MS CF ->
        | s log slot off len out (r & ->) L1 L2 L3 CF -> | s log slot t nonce mask filled ss sg out SW NO NTH CF HU SL LE MS -> SG LS]; try discriminate.
      exists s, slot, t, nonce, mask, sg. unfold negotiated_sig_len. rewrite SL. auto 8. }
    destruct (K _ _ _ _ _ S1) as (a & slot & t & nonce & mask & sg & -> & -> & SW1 & M1 & -> & LG1).
    destruct (K _ _ _ _ _ S2) as (b & slot' & t' & nonce' & mask' & sg' & -> & -> & SW2 & M2 & -> & LG2).
    assert (mask = mask') as <- by (eapply mask_unique; eauto).
    assert (slot = slot') as <- by (destruct SW1 as (r1 & ->), SW2 as (r2 & SW2); cbn in SW2; congruence).
    cbn [same_view] in SV. destruct SV as (V1 & V2 & V3).
    exists (unsigned_auth a slots slot mask (wire_nonce (rnd_nonce rnd))), (RspChallenge a), (RspChallenge b).
    rewrite !app_length, LG1, LG2, !Nat.add_sub, !firstn_app_exact by reflexivity. split; [reflexivity|].
    split; [unfold unsigned_auth; now rewrite V1, V3|]. split; [exact G1|]. split; [exact G2|]. split; auto.
  - destruct (served_rebase slots rnd rnd req st1 _ out1 s1' l1 st2 (t_get (rsp_transcript R2)) S1 C SV) as (s3 & l3 & S3 & V3).
    destruct (served_unique slots rnd req st2 _ _ _ _ _ _ _ HS HB RK S3 S2) as (-> & -> & _).
    exists out2, s1', s2'. auto.
Qed.
(** Whole histories without CHALLENGE: the same requests get the same answers,
    whatever randomness was used. *)
Theorem C80_same_histories slots : forall ex1 ex2 R1 R2 st1 st2 R1' R2', setting slots -> reached slots R1 -> reached slots R2 ->
  rsp_state R1 = Some st1 -> rsp_state R2 = Some st2 -> same_view st1 st2 ->
  PropRspState.steps slots R1 ex1 R1' -> PropRspState.steps slots R2 ex2 R2' -> map fst ex1 = map fst ex2 ->
  Forall (fun x => code (fst x) <> 0x83%N) ex1 -> map snd ex1 = map snd ex2.
Proof.
  intros ex1 ex2 R1 R2 st1 st2 R1' R2' HS H1 H2 E1 E2 SV T1 T2 EM NC.
  enough (X : map snd ex1 = map snd ex2 /\ exists a b, reached slots R1' /\ reached slots R2' /\ rsp_state R1' = Some a /\ rsp_state R2' = Some b /\ same_view a b) by apply X.
  revert ex2 R2' T2 EM. induction T1 as [|ex1 Ra rnd req rsp out rsp' Rb T1 IH HB RK HH]; intros ex2 R2' T2 EM.
  - destruct T2 as [|ex2 Rc rnd2 req2 rsp2 out2 rsp2' Rd T2 HB2 RK2 HH2].
    + split; [reflexivity|]. eauto 8.
    + rewrite map_app in EM. destruct (map fst ex2); discriminate.
  - destruct T2 as [|ex2 Rc rnd2 req2 rsp2 out2 rsp2' Rd T2 HB2 RK2 HH2].
    { rewrite map_app in EM. destruct (map fst ex1); discriminate. }
    rewrite !map_app in EM. cbn [map fst] in EM. apply app_inj_tail in EM as [EM <-].
    apply Forall_app in NC as [NC1 NC2]. inversion NC2 as [|? ? C _]; subst. cbn [fst] in C.
    destruct (IH NC1 ex2 Rc T2 EM) as (EO & a & b & HRa & HRc & Ea & Eb & V).
    destruct (step_sound slots Ra rnd req rsp out rsp' Rb HS HRa HB RK HH) as (s1 & s1' & l1 & F1 & G1 & _ & S1 & _).
    destruct (step_sound slots Rc rnd2 req rsp2 out2 rsp2' Rd HS HRc HB RK2 HH2) as (s2 & s2' & l2 & F2 & G2 & _ & S2 & _).
    rewrite Ea in F1. injection F1 as <-. rewrite Eb in F2. injection F2 as <-.
    destruct (served_rebase slots rnd rnd2 req a _ out s1' l1 b (t_get (rsp_transcript Rc)) S1 C V) as (s3 & l3 & S3 & V3).
    destruct (served_unique slots rnd2 req b _ _ _ _ _ _ _ HS HB RK2 S3 S2) as (-> & -> & _).
    split; [rewrite !map_app; now rewrite EO|]. exists s1', s2'.
    pose proof (reached_handle slots Ra rnd req rsp _ _ Rb HRa HB RK HH). pose proof (reached_handle slots Rc rnd2 req rsp2 _ _ Rd HRc HB RK2 HH2). auto.
Qed.
(** After an answered GET_VERSION everything a user sees is as from a responder
    just created that answered the same GET_VERSION. *)
Theorem C80_restart_forgets slots R rnd req rsp out rsp' R1 rnd2 rsp2 : setting slots -> reached slots R -> bytes req -> rnd_ok rnd -> rnd_ok rnd2 ->
  responder_handle_msg R rnd req rsp = (Replied out (Ok tt), rsp', R1) -> code req = 0x84%N -> length out <= length rsp2 ->
  exists R2, responder_handle_msg (responder_new slots) rnd2 req rsp2 = (Replied out (Ok tt), out ++ skipn (length out) rsp2, R2) /\
    forall calls, observed R1 calls = observed R2 calls.
Proof.
  intros HS HR HB RK RK2 HH C L. destruct (step_sound slots R rnd req rsp out rsp' R1 HS HR HB RK HH) as (st & st' & log' & E1 & E2 & G & SV & _ & _ & LL).
  destruct SV as [st log NE SW | s log ct flags own out (r & ->) OB NM FN -> | s log body na al es fs out (r & ->) NF AC ->
    | s log mask out (r & ->) L0 MS CF -> | s log slot off len out (r & ->) L1 L2 L3 CF -> | s log slot t nonce mask filled ss sg out (r & ->) NO NTH CF HU SL LE MS -> SG LS];
    try discriminate.
  assert (H0 : reached slots (responder_new slots)) by (exists []; split; [constructor|reflexivity]).
  destruct (step_complete slots (responder_new slots) rnd2 req rsp2 RspVersion version_reply (RspCapabilities (mkRspCap None None None None)) (req ++ version_reply)
    HS H0 HB RK2 eq_refl) as (R2 & H2 & H3 & H4); auto.
  { apply served_version; [discriminate|exact SW]. }
  exists R2. split; [exact H2|]. intros calls.
  pose proof (reached_handle slots R rnd req rsp _ _ R1 HR HB RK HH) as HR1.
  pose proof (reached_handle slots (responder_new slots) rnd2 req rsp2 _ _ R2 H0 HB RK2 H2) as HR2.
  destruct (reached_ok _ _ HR1) as [S1 W1]. destruct (reached_ok _ _ HR2) as [S2 W2].
  apply rsim_calls. repeat split; try apply W1; try apply W2; congruence.
Qed.
End PropTwoRun.

#[local] Existing Instance sample_cfg.
#[local] Existing Instance sample_crypto.
Lemma next_ok Q f b : match fst (fst (requester_next_request Q f b)) with Ok _ => True | _ => False end ->
  exists o b' Q', requester_next_request Q f b = (Ok o, b', Q').
Proof. destruct (requester_next_request Q f b) as [[[o|e|p] b'] Q']; cbn; try contradiction. eauto. Qed.
Lemma handle_ok R rnd req rsp : match fst (fst (responder_handle_msg R rnd req rsp)) with Replied _ (Ok tt) => True | _ => False end ->
  exists o b R', responder_handle_msg R rnd req rsp = (Replied o (Ok tt), b, R').
Proof. destruct (responder_handle_msg R rnd req rsp) as [[[o [[]|e|p]|p] b] R']; cbn; try contradiction. eauto. Qed.
Lemma both_algorithms Q1 Q2 : match req_state Q1, req_state Q2 with Some (ReqAlgorithms _), Some (ReqAlgorithms _) => True | _, _ => False end ->
  exists st1 st2, req_state Q1 = Some st1 /\ req_state Q2 = Some st2 /\ awaits st1 = awaits st2 /\ slot_told st1 = slot_told st2.
Proof.
  destruct (req_state Q1) as [[| |a|a|a|a|]|]; try contradiction. destruct (req_state Q2) as [[| |b|b|b|b|]|]; try contradiction.
  intros _. exists (ReqAlgorithms a), (ReqAlgorithms b). auto.
Qed.
Lemma logs_differ (x1 x2 : Reply * list N * Responder) a1 b1 R1 a2 b2 R2 : x1 = (a1, b1, R1) -> x2 = (a2, b2, R2) ->
  length (t_get (rsp_transcript (snd x1))) <> length (t_get (rsp_transcript (snd x2))) -> t_get (rsp_transcript R1) <> t_get (rsp_transcript R2).
Proof. intros -> -> H E. apply H. cbn [snd]. now rewrite E. Qed.
Lemma both_views R1 R2 : match rsp_state R1, rsp_state R2 with Some a, Some b => same_view a b | _, _ => False end ->
  exists st1 st2, rsp_state R1 = Some st1 /\ rsp_state R2 = Some st2 /\ same_view st1 st2.
Proof. destruct (rsp_state R1) as [a|]; try contradiction. destruct (rsp_state R2) as [b|]; try contradiction. eauto. Qed.
(** Two requesters whose peers announced different capabilities. *)
Definition other_caps : list N := [0x11; 0x61; 0; 0; 0; 20; 0; 0; 2; 0; 0; 0]%N.
Definition other_run : list event * bool * Requester :=
  match drive 2 [sample_response 0; other_caps] sample_q0 with Some x => x | None => ([], false, sample_q0) end.
Definition cap_of (R : Requester) : N := match req_state R with Some (ReqAlgorithms s) => qa_responder_cap s | _ => 0%N end.
Lemma C79_X : match req_state (driven_R 2), req_state (snd other_run) with Some (ReqAlgorithms _), Some (ReqAlgorithms _) => True | _, _ => False end.
Proof. vm_compute. exact I. Qed.
Lemma C79_NC : cap_of (driven_R 2) <> cap_of (snd other_run).
Proof. vm_compute. discriminate. Qed.
Lemma C79_Y1 : match fst (fst (requester_next_request (driven_R 2) (repeat 7%N 32) big_buf)) with Ok _ => True | _ => False end.
Proof. vm_compute. exact I. Qed.
Lemma C79_Y2 : match fst (fst (requester_next_request (snd other_run) (repeat 7%N 32) big_buf)) with Ok _ => True | _ => False end.
Proof. vm_compute. exact I. Qed.
Example C79_example : exists st1 st2 out1 out2 b1 b2 Q1' Q2', req_setting /\
  req_reached [1; 2; 3]%N (driven_R 2) /\ req_reached [1; 2; 3]%N (snd other_run) /\
  req_state (driven_R 2) = Some st1 /\ req_state (snd other_run) = Some st2 /\
  awaits st1 = awaits st2 /\ slot_told st1 = slot_told st2 /\ cap_of (driven_R 2) <> cap_of (snd other_run) /\
  requester_next_request (driven_R 2) (repeat 7%N 32) big_buf = (Ok out1, b1, Q1') /\
  requester_next_request (snd other_run) (repeat 7%N 32) big_buf = (Ok out2, b2, Q2').
Proof.
  assert (S2 : req_session [1; 2; 3]%N (fst (fst other_run)) (snd other_run)).
  { assert (E : drive 2 [sample_response 0; other_caps] sample_q0 = Some other_run) by (vm_compute; reflexivity).
    destruct other_run as [[ev b] R]. apply (drive_session [1; 2; 3]%N _ _ _ [] _ _ _ (req_session_new _)) in E; [exact E| |reflexivity].
    repeat (constructor; [vm_compute; reflexivity|]). constructor. }
  pose proof (sample_reached 2 ltac:(lia)) as H1. pose proof (session_reached _ _ _ S2) as H2.
  pose proof C79_X as X.
  pose proof C79_NC as NC.
  pose proof C79_Y1 as Y1.
  pose proof C79_Y2 as Y2.
  destruct (both_algorithms (driven_R 2) (snd other_run) X) as (st1 & st2 & E1 & E2 & E3 & E4).
  destruct (next_ok (driven_R 2) (repeat 7%N 32) big_buf Y1) as (o1 & b1 & Q1' & G1). destruct (next_ok (snd other_run) (repeat 7%N 32) big_buf Y2) as (o2 & b2 & Q2' & G2).
  exists st1, st2, o1, o2, b1, b2, Q1', Q2'.
  exact (conj sample_req_setting (conj H1 (conj H2 (conj E1 (conj E2 (conj E3 (conj E4 (conj NC (conj G1 G2))))))))).
Qed.

(** Two responders about to be challenged, with different logs: the sample one,
    and one that went through a whole session before and was asked for its digests
    twice in the second. *)
Definition long_requests : list (list N) :=
  sample_requests ++ firstn 3 sample_requests ++ [sample_request 3; sample_request 3; sample_request 4].
Lemma long_session : session sample_slots (served_ex long_requests) (served_R long_requests).
Proof. apply served_session; [reflexivity|apply bytes_all; reflexivity|vm_compute; discriminate]. Qed.
Lemma C80_Y1 : match fst (fst (responder_handle_msg (before 5) (sample_rnd 9) (sample_request 5) big_buf)) with Replied _ (Ok tt) => True | _ => False end.
Proof. vm_compute. exact I. Qed.
Lemma C80_Y2 : match fst (fst (responder_handle_msg (served_R long_requests) (sample_rnd 9) (sample_request 5) big_buf)) with Replied _ (Ok tt) => True | _ => False end.
Proof. vm_compute. exact I. Qed.
Lemma C80_Y3 : length (t_get (rsp_transcript (snd (responder_handle_msg (before 5) (sample_rnd 9) (sample_request 5) big_buf)))) <>
               length (t_get (rsp_transcript (snd (responder_handle_msg (served_R long_requests) (sample_rnd 9) (sample_request 5) big_buf)))).
Proof. vm_compute. discriminate. Qed.
Lemma C80_X : match rsp_state (before 5), rsp_state (served_R long_requests) with Some a, Some b => same_view a b | _, _ => False end.
Proof. vm_compute. auto. Qed.
Example C80_example : exists st1 st2 out1 out2 b1 b2 R1' R2', setting sample_slots /\
  reached sample_slots (before 5) /\ reached sample_slots (served_R long_requests) /\ bytes (sample_request 5) /\ rnd_ok (sample_rnd 9) /\
  rsp_state (before 5) = Some st1 /\ rsp_state (served_R long_requests) = Some st2 /\ same_view st1 st2 /\
  responder_handle_msg (before 5) (sample_rnd 9) (sample_request 5) big_buf = (Replied out1 (Ok tt), b1, R1') /\
  responder_handle_msg (served_R long_requests) (sample_rnd 9) (sample_request 5) big_buf = (Replied out2 (Ok tt), b2, R2') /\
  t_get (rsp_transcript R1') <> t_get (rsp_transcript R2').
Proof.
  assert (H1 : reached sample_slots (before 5)) by (eapply PropResponder.session_reached, before_session; lia).
  assert (H2 : reached sample_slots (served_R long_requests)) by (eapply PropResponder.session_reached, long_session).
  pose proof C80_X as X.
  pose proof C80_Y1 as Y1.
  pose proof C80_Y2 as Y2.
  pose proof C80_Y3 as Y3.
  destruct (both_views (before 5) (served_R long_requests) X) as (st1 & st2 & E1 & E2 & V).
  destruct (handle_ok (before 5) (sample_rnd 9) (sample_request 5) big_buf Y1) as (o1 & b1 & R1' & G1). destruct (handle_ok (served_R long_requests) (sample_rnd 9) (sample_request 5) big_buf Y2) as (o2 & b2 & R2' & G2).
  assert (HB : bytes (sample_request 5)) by (apply bytes_check; vm_compute; reflexivity).
  assert (NE : t_get (rsp_transcript R1') <> t_get (rsp_transcript R2')).
  { exact (logs_differ _ _ _ _ _ _ _ _ G1 G2 Y3). }
  exists st1, st2, o1, o2, b1, b2, R1', R2'.
  exact (conj sample_setting (conj H1 (conj H2 (conj HB (conj (sample_rnd_ok 9 eq_refl) (conj E1 (conj E2 (conj V (conj G1 (conj G2 NE)))))))))).
Qed.
(** ... and the second GET_VERSION of that history. *)
Lemma all_session : session sample_slots (served_ex sample_requests) (served_R sample_requests).
Proof. apply served_session; [reflexivity|apply bytes_all; reflexivity|vm_compute; discriminate]. Qed.
Lemma C80r_Y1 : match fst (fst (responder_handle_msg (served_R sample_requests) (sample_rnd 9) (sample_request 0) big_buf)) with Replied _ (Ok tt) => True | _ => False end.
Proof. vm_compute. exact I. Qed.
Example C80_restart_example : exists out b R1, setting sample_slots /\ reached sample_slots (served_R sample_requests) /\
  responder_handle_msg (served_R sample_requests) (sample_rnd 9) (sample_request 0) big_buf = (Replied out (Ok tt), b, R1) /\
  code (sample_request 0) = 0x84%N /\ length out <= length big_buf.
Proof.
  assert (H1 : reached sample_slots (served_R sample_requests)) by exact (PropResponder.session_reached _ _ _ all_session).
  pose proof C80r_Y1 as Y1.
  destruct (handle_ok (served_R sample_requests) (sample_rnd 9) (sample_request 0) big_buf Y1) as (o1 & b1 & R1' & G1).
  exists o1, b1, R1'. split; [exact sample_setting|]. split; [exact H1|]. split; [exact G1|]. split; [reflexivity|].
  assert (HB : bytes (sample_request 0)) by (apply bytes_check; vm_compute; reflexivity).
  destruct (step_sound _ _ _ _ _ _ _ _ sample_setting H1 HB (sample_rnd_ok 9 eq_refl) G1) as (st & st' & log' & _ & _ & _ & _ & L & _). exact L.
Qed.
