(** C76: an ERROR response is never taken for an answer.  C78: repeated requests
    and replayed responses. *)
From Verif Require Import Base BaseLemmas Config Encoding MsgCommon MsgVersion MsgCapabilities MsgAlgorithms MsgDigest
     MsgCertificates MsgChallenge MsgError Transcript Crypto Responder Requester SpecWire SpecMsgs SpecResponder SpecRequester SpecReqVerdict
     PropTools PropTranscript PropGeneric RspParts RspStep PropResponder PropRspState ReqStep ReqMsg PropRequester PropReqState PropReqVerdict
     Sample SampleRun SampleReq.

#[local] Opaque chain_bytes.
#[local] Arguments Nat.leb : simpl never.

(** The requester waits for a response. *)
Definition waiting (st : ReqStates) : Prop := st <> ReqError /\ st <> ReqNewSession.

Section PropRepeat.
Context {cfg : Config} {cr : Crypto}.

(** * C76 *)
Lemma expect_other k rsp : 2 < length rsp -> code rsp <> code_of k ->
  req_expect (id_of k) rsp = Err (ReqUnexpectedMsgCode (code_of k) (nth 0 rsp 0%N)).
Proof.
  intros L NC. unfold req_expect. destruct (header_cases k rsp L) as [(A & _)|[(A & _)|(_ & ->)]]; try congruence.
  destruct (nth_code rsp L) as [_ ->]. destruct k; reflexivity.
Qed.
(** Any message other than the one awaited is refused, whoever sent it; the log
    is untouched and every later call fails. *)
Theorem C76_other_message_refused R st rsp : req_state R = Some st -> waiting st -> 2 < length rsp -> code rsp <> fst (awaits st) ->
  exists R', requester_handle_msg R rsp = (Err (ReqUnexpectedMsgCode (fst (awaits st)) (nth 0 rsp 0%N)), R') /\
    req_state R' = Some ReqError /\ req_transcript R' = req_transcript R /\ req_root R' = req_root R.
Proof.
  intros ES [W1 W2] L NC. unfold requester_handle_msg. rewrite ES.
  assert (E : req_dispatch st (req_root R) rsp (req_transcript R) = (Err (ReqUnexpectedMsgCode (fst (awaits st)) (nth 0 rsp 0%N)), req_transcript R)).
  { assert (EX : forall k (A B : Type) (m : T A) (f : A -> T B), code_of k = fst (awaits st) ->
      (x <- (lift (req_expect (id_of k) rsp) ;;; m) ;; f x) (req_transcript R) =
        (Err (ReqUnexpectedMsgCode (fst (awaits st)) (nth 0 rsp 0%N)), req_transcript R)).
    { intros k A B m f EK. unfold bind, lift. rewrite expect_other by congruence. now rewrite EK. }
    destruct st as [| |s|s|s|s|]; try congruence; cbn [req_dispatch awaits fst] in *.
    - apply (EX KVersion). reflexivity.
    - apply (EX KCapabilities). reflexivity.
    - apply (EX KAlgorithms). reflexivity.
    - destruct (qi_digests s); cbn [fst] in *; [apply (EX KCertificate)|apply (EX KDigests)]; reflexivity.
    - apply (EX KChallengeAuth). reflexivity. }
  rewrite E. eexists. split; [reflexivity|]. auto.
Qed.
(** In particular an ERROR response. *)
Corollary C76_error_not_answer R st rsp : req_state R = Some st -> waiting st -> 2 < length rsp -> code rsp = 0x7F%N ->
  exists R', requester_handle_msg R rsp = (Err (ReqUnexpectedMsgCode (fst (awaits st)) (nth 0 rsp 0%N)), R') /\ req_state R' = Some ReqError.
Proof.
  intros ES W L C. destruct (C76_other_message_refused R st rsp ES W L) as (R' & E1 & E2 & _); [|eauto].
  rewrite C. destruct st as [| |s|s|s|s|]; try discriminate. cbn [awaits fst]. destruct (qi_digests s); discriminate.
Qed.
(** A responder that fails stops the requester waiting for its answer as well:
    with an error, if the ERROR response fits the response buffer, and with a panic
    (an empty message is handed on) if it does not.  Both are dead afterwards. *)
Theorem C76_failure_stops_both slots R rnd req rsp out e rsp' R' Q st : reached slots R ->
  responder_handle_msg R rnd req rsp = (Replied out (Err e), rsp', R') -> req_state Q = Some st -> waiting st ->
  rsp_state R' = Some RspError /\
  ((out = error_reply e /\ exists Q', requester_handle_msg Q out = (Err (ReqUnexpectedMsgCode (fst (awaits st)) 0x12), Q') /\ req_state Q' = Some ReqError) \/
   (out = [] /\ length rsp < length (error_reply e) /\ exists p Q', requester_handle_msg Q out = (Panic p, Q') /\ req_state Q' = None)).
Proof.
  intros HR HH EQ W. destruct (C26_error_response slots R rnd req rsp out e rsp' R' HR HH) as (E1 & _ & _ & E2 & E3).
  split; [exact E1|]. destruct (Nat.le_gt_cases (length (error_reply e)) (length rsp)) as [L|L].
  - rewrite (E2 L). left. split; [reflexivity|].
    destruct (C76_error_not_answer Q st (error_reply e) EQ W) as (Q' & X1 & X2); [| |eauto].
    + clear. unfold error_reply. rewrite app_length.
      destruct e; cbn; try lia; repeat match goal with |- context [match ?x with _ => _ end] => destruct x; cbn; try lia end.
    + reflexivity.
  - rewrite (E3 L). right. split; [reflexivity|]. split; [exact L|].
    destruct W as [W1 W2]. unfold requester_handle_msg. rewrite EQ.
    destruct st as [| |s|s|s|s|]; try congruence; cbn [req_dispatch]; [| | |destruct (qi_digests s)|].
    all: eexists; eexists; split; [reflexivity|reflexivity].
Qed.

(** * C78 *)
(** The same GET_VERSION or GET_DIGESTS, sent again after it was answered, gets
    the same response again. *)
Theorem C78_repeat_same_partial slots R rnd req rsp out rsp' R1 rnd2 rsp2 : setting slots -> reached slots R -> bytes req -> rnd_ok rnd -> rnd_ok rnd2 ->
  responder_handle_msg R rnd req rsp = (Replied out (Ok tt), rsp', R1) -> In (code req) [0x84; 0x81]%N ->
  length out <= length rsp2 -> length (t_get (rsp_transcript R1)) + length req + length out <= TRANSCRIPT_SIZE ->
  exists R2, responder_handle_msg R1 rnd2 req rsp2 = (Replied out (Ok tt), out ++ skipn (length out) rsp2, R2) /\
    rsp_state R2 = rsp_state R1.
Proof.
  intros HS HR HB RK RK2 HH HC L1 L2. destruct (step_sound slots R rnd req rsp out rsp' R1 HS HR HB RK HH) as (st & st' & log' & E1 & E2 & G & SV & _).
  pose proof (reached_handle slots R rnd req rsp _ _ R1 HR HB RK HH) as HR1.
  assert (X : exists log2, served slots rnd2 req st' (t_get (rsp_transcript R1)) out st' log2 /\ length log2 <= TRANSCRIPT_SIZE).
  { destruct SV as [st log NE SW | s log ct flags own out (r & ->) OB NM FN -> | s log body na al es fs out (r & ->) NF AC ->
      | s log mask out SW L MS CF -> | s log slot off len out (r & ->) LA LB LC CF -> | s log slot t nonce mask filled ss sg out (r & ->) NO NTH CF HU SL LE MS -> SG LS].
    - exists (req ++ version_reply). split; [apply served_version; [discriminate|exact SW]|]. rewrite app_length. lia.
    - exfalso. destruct HC as [X|[X|[]]]; discriminate.
    - exfalso. destruct HC as [X|[X|[]]]; discriminate.
    - eexists. split; [eapply served_digests; eauto|]. rewrite !app_length in *. lia.
    - exfalso. destruct HC as [X|[X|[]]]; discriminate.
    - exfalso. destruct HC as [X|[X|[]]]; discriminate. }
  destruct X as (log2 & SV2 & L3). destruct (step_complete slots R1 rnd2 req rsp2 st' out st' log2 HS HR1 HB RK2 E2 SV2 L1 L3) as (R2 & H2 & H3 & _).
  exists R2. split; [exact H2|congruence].
Qed.
(** A CHALLENGE sent again is answered again, with a new nonce and signature (if
    the signer succeeds): the old answer is not repeated. *)
Theorem C78_repeat_challenge_partial slots R rnd req rsp out rsp' R1 rnd2 rsp2 : setting slots -> reached slots R -> bytes req -> rnd_ok rnd -> rnd_ok rnd2 ->
  responder_handle_msg R rnd req rsp = (Replied out (Ok tt), rsp', R1) -> code req = 0x83%N ->
  (forall filled d, In (Some filled) slots -> exists sg, fs_signer filled (rnd_sign rnd2) d = Ok sg /\
     forall ss st, rsp_state R1 = Some st -> ss = negotiated_sig_len st -> length sg = ss) ->
  length out <= length rsp2 -> length (t_get (rsp_transcript R1)) + length req + length out <= TRANSCRIPT_SIZE ->
  exists out2 R2, responder_handle_msg R1 rnd2 req rsp2 = (Replied out2 (Ok tt), out2 ++ skipn (length out2) rsp2, R2) /\
    length out2 = length out /\ rsp_state R2 = rsp_state R1 /\
    (rnd_nonce rnd2 <> rnd_nonce rnd -> feature_rand = true -> out2 <> out).
Proof.
  intros HS HR HB RK RK2 HH HC SGN L1 L2. destruct (step_sound slots R rnd req rsp out rsp' R1 HS HR HB RK HH) as (st & st' & log' & E1 & E2 & G & SV & _).
  pose proof (reached_handle slots R rnd req rsp _ _ R1 HR HB RK HH) as HR1.
  destruct SV as [st log NE (r & ->) | s log ct flags own out (r & ->) OB NM FN -> | s log body na al es fs out (r & ->) NF AC ->
      | s log mask out (r & ->) L MS CF -> | s log slot off len out (r & ->) LA LB LC CF -> | s log slot t nonce mask filled ss sg out SW NO NTH CF HU SL LE MS EO SG LS];
    try discriminate.
  destruct (SGN filled (sha (al_base_hash (ri_algorithms s)) (t_get (rsp_transcript R1) ++ req ++ unsigned_auth s slots slot mask (wire_nonce (rnd_nonce rnd2)))) (nth_error_In _ _ NTH))
    as (sg2 & SG2 & LS2).
  specialize (LS2 ss (RspChallenge s) E2). unfold negotiated_sig_len in LS2. rewrite SL in LS2. specialize (LS2 eq_refl).
  assert (LU : length (unsigned_auth s slots slot mask (wire_nonce (rnd_nonce rnd2))) = length out).
  { rewrite EO. unfold unsigned_auth, challenge_auth_layout. rewrite !app_length. unfold wire_nonce. destruct RK as [RA _], RK2 as [RB _].
    destruct feature_rand; rewrite ?RA, ?RB; reflexivity. }
  rewrite app_length in L1, L2.
  destruct (step_complete slots R1 rnd2 req rsp2 (RspChallenge s) (unsigned_auth s slots slot mask (wire_nonce (rnd_nonce rnd2)) ++ sg2) (RspChallenge s)
     (t_get (rsp_transcript R1) ++ req ++ unsigned_auth s slots slot mask (wire_nonce (rnd_nonce rnd2)))) as (R2 & H2 & H3 & _); auto.
  - eapply served_challenge; eauto.
  - rewrite app_length. lia.
  - rewrite !app_length. lia.
  - eexists _, R2. split; [exact H2|]. split; [rewrite !app_length; lia|]. split; [congruence|]. intros ND FR EQ.
    apply ND. rewrite EO in EQ, LU. apply (f_equal (firstn (length (unsigned_auth s slots slot mask (wire_nonce (rnd_nonce rnd2)))))) in EQ.
    rewrite firstn_app_exact in EQ by reflexivity. rewrite firstn_app_exact in EQ by auto.
    unfold unsigned_auth, challenge_auth_layout, wire_nonce in EQ. rewrite FR in EQ.
    apply (f_equal (skipn (4 + length (slot_chain_digest (al_base_hash (ri_algorithms s)) slots (N.to_nat slot))))) in EQ.
    cbn [app] in EQ. cbn [Nat.add skipn] in EQ. rewrite !skipn_app, !skipn_all, !Nat.sub_diag in EQ. cbn [skipn app] in EQ.
    apply (f_equal (firstn 32)) in EQ. destruct RK as [RA _], RK2 as [RB _]. rewrite !firstn_app_exact in EQ by auto. exact EQ.
Qed.
(** GET_CAPABILITIES, NEGOTIATE_ALGORITHMS and GET_CERTIFICATE, sent again, are
    refused, and the session is lost. *)
Theorem C78_repeat_refused slots R rnd req rsp out rsp' R1 rnd2 rsp2 : setting slots -> reached slots R -> bytes req -> rnd_ok rnd ->
  responder_handle_msg R rnd req rsp = (Replied out (Ok tt), rsp', R1) -> In (code req) [0xE1; 0xE3; 0x82]%N ->
  exists expected got out2 rsp2' R2, responder_handle_msg R1 rnd2 req rsp2 = (Replied out2 (Err (RspUnexpectedMsgCode expected got)), rsp2', R2) /\
    rsp_state R2 = Some RspError.
Proof.
  intros HS HR HB RK HH HC. destruct (step_sound slots R rnd req rsp out rsp' R1 HS HR HB RK HH) as (st & st' & log' & E1 & E2 & G & SV & _).
  assert (X : st' <> RspError /\ 2 < length req /\ ~ In (code req) (map fst (accepts st'))).
  { destruct SV as [st log NE (r & ->) | s log ct flags own out (r & ->) OB NM FN -> | s log body na al es fs out (r & ->) NF AC ->
      | s log mask out (r & ->) L MS CF -> | s log slot off len out (r & ->) LA LB LC CF -> | s log slot t nonce mask filled ss sg out (r & ->) NO NTH CF HU SL LE MS -> SG LS].
    - exfalso. destruct HC as [X|[X|[X|[]]]]; discriminate.
    - split; [discriminate|]. split; [rewrite !app_length; simpl; lia|]. simpl. intros [X|[X|[]]]; discriminate.
    - split; [discriminate|]. split.
      + destruct NF as (len & ea & eh & t & _ & _ & _ & _ & _ & _ & _ & _ & _ & ->). unfold negotiate_layout. rewrite !app_length. simpl. lia.
      + simpl. intros [X|[X|[X|[]]]]; discriminate.
    - exfalso. destruct HC as [X|[X|[X|[]]]]; discriminate.
    - split; [discriminate|]. split; [unfold get_certificate_layout; rewrite !app_length; simpl; lia|]. simpl. intros [X|[X|[]]]; discriminate.
    - exfalso. destruct HC as [X|[X|[X|[]]]]; discriminate. }
  destruct X as (NE & L & NI). destruct (C25_rejected R1 rnd2 req rsp2 st' E2 NE L) as (e & out2 & rsp2' & R2 & H2 & H3 & _ & _ & H4).
  { intros I1. apply NI. apply in_map_iff. eexists. split; [|exact I1]. reflexivity. }
  destruct (H4 NI) as (x & y & ->). exists x, y, out2, rsp2', R2. auto.
Qed.
(** A response that was accepted is never accepted again, in any later state. *)
Theorem C78_replay_refused root ev R m b R' : req_setting -> req_session root ev R -> In m (received ev) -> bytes m ->
  requester_handle_msg R m <> (Ok b, R').
Proof.
  intros HS H IM HB E. pose proof (req_session_got root ev R m b R' H HB E) as H2.
  destruct (C36_protocol_order root _ R' HS H2) as (k & K). rewrite received_app, map_app in K. cbn [received flat_map app map] in K.
  pose proof (steps_nodup k) as ND. unfold steps in ND. rewrite <- K in ND. apply NoDup_remove_2 in ND. rewrite app_nil_r in ND.
  apply ND. apply in_map. exact IM.
Qed.
End PropRepeat.

#[local] Existing Instance sample_cfg.
#[local] Existing Instance sample_crypto.
(** The sample responder before its request [i] (0 to 5), and what it then answers. *)
Definition before (i : nat) : Responder := served_R (firstn i sample_requests).
Lemma before_session i : i <= 6 -> session sample_slots (served_ex (firstn i sample_requests)) (before i).
Proof.
  intros L. apply served_session.
  - do 7 (destruct i as [|i]; [reflexivity|]). lia.
  - apply Forall_forall. intros x IX. assert (F : Forall bytes sample_requests) by (apply bytes_all; reflexivity).
    rewrite Forall_forall in F. apply F. rewrite <- (firstn_skipn i). apply in_or_app. auto.
  - do 7 (destruct i as [|i]; [vm_compute; discriminate|]). lia.
Qed.
(** Every sample request is answered; then the first and the fourth, sent again, get
    the same answer and the second, third and fifth an error. *)
Definition first_answer (i : nat) : list N * Responder :=
  match responder_handle_msg (before i) (sample_rnd 9) (sample_request i) big_buf with
  | (Replied out (Ok tt), _, R1) => (out, R1)
  | (_, _, R1) => ([], R1)
  end.
Definition second_answer (i : nat) : bool :=
  match responder_handle_msg (snd (first_answer i)) (sample_rnd 10) (sample_request i) big_buf with
  | (Replied out (Ok tt), _, _) => list_eqb out (fst (first_answer i))
  | _ => false
  end.
Example C78_example : map second_answer [0; 1; 2; 3; 4; 5] = [true; false; false; true; false; false] /\
  forall i, i < 6 -> exists out b, responder_handle_msg (before i) (sample_rnd 9) (sample_request i) big_buf = (Replied out (Ok tt), b, snd (first_answer i)) /\ out <> [].
Proof.
  split; [vm_compute; reflexivity|]. intros i L. unfold first_answer.
  destruct (responder_handle_msg (before i) (sample_rnd 9) (sample_request i) big_buf) as [[[out [[]|e|p]|p] b] R1] eqn:E.
  - exists out, b. split; [reflexivity|]. intros ->.
    assert (X : match fst (fst (responder_handle_msg (before i) (sample_rnd 9) (sample_request i) big_buf)) with Replied [] _ => False | _ => True end).
    { do 6 (destruct i as [|i]; [vm_compute; exact I|]). lia. }
    rewrite E in X. exact X.
  - exfalso. assert (X : match fst (fst (responder_handle_msg (before i) (sample_rnd 9) (sample_request i) big_buf)) with Replied _ (Err _) => False | _ => True end).
    { do 6 (destruct i as [|i]; [vm_compute; exact I|]). lia. }
    rewrite E in X. exact X.
  - exfalso. assert (X : match fst (fst (responder_handle_msg (before i) (sample_rnd 9) (sample_request i) big_buf)) with Replied _ (Panic _) => False | _ => True end).
    { do 6 (destruct i as [|i]; [vm_compute; exact I|]). lia. }
    rewrite E in X. exact X.
  - exfalso. assert (X : match fst (fst (responder_handle_msg (before i) (sample_rnd 9) (sample_request i) big_buf)) with Replied _ _ => True | _ => False end).
    { do 6 (destruct i as [|i]; [vm_compute; exact I|]). lia. }
    rewrite E in X. exact X.
Qed.
(** It is not true that an answered request can be sent again: the responder
    answers GET_CAPABILITIES, and refuses the same bytes the second time, with the
    same buffers and plenty of room. *)
Theorem C78_repeat_refuted : exists R rnd req rsp out rsp' R1, setting sample_slots /\ reached sample_slots R /\ bytes req /\ rnd_ok rnd /\
  responder_handle_msg R rnd req rsp = (Replied out (Ok tt), rsp', R1) /\
  length out <= length rsp /\ length (t_get (rsp_transcript R1)) + length req + length out <= TRANSCRIPT_SIZE /\
  exists e out2 rsp2 R2, responder_handle_msg R1 rnd req rsp = (Replied out2 (Err e), rsp2, R2) /\ rsp_state R2 = Some RspError.
Proof.
  destruct (proj2 C78_example 1 ltac:(lia)) as (out & b & H & _).
  exists (before 1), (sample_rnd 9), (sample_request 1), big_buf, out, b, (snd (first_answer 1)).
  assert (HR : reached sample_slots (before 1)) by (eapply PropResponder.session_reached, before_session; lia).
  assert (HB : bytes (sample_request 1)) by (apply bytes_check; vm_compute; reflexivity).
  assert (HK : rnd_ok (sample_rnd 9)) by (apply sample_rnd_ok; reflexivity).
  destruct (step_sound _ _ _ _ _ _ _ _ sample_setting HR HB HK H) as (st & st' & log' & _ & _ & G & _ & L & _ & L2).
  destruct (C78_repeat_refused sample_slots (before 1) (sample_rnd 9) (sample_request 1) big_buf out b _ (sample_rnd 9) big_buf sample_setting HR HB HK H)
    as (x & y & out2 & rsp2 & R2 & H2 & H3); [left; reflexivity|].
  repeat (split; [assumption || exact sample_setting|]). split; [|eauto 8].
  assert (EO : out = fst (first_answer 1)) by (unfold first_answer; now rewrite H). rewrite EO.
  apply Nat.leb_le. vm_compute. reflexivity.
Qed.
(** A requester waiting for CAPABILITIES, and the responder's refusal. *)
Example C76_example : exists R Q st out e rsp' R', reached sample_slots R /\
  responder_handle_msg R (sample_rnd 9) (sample_request 3) big_buf = (Replied out (Err e), rsp', R') /\
  req_reached [1; 2; 3]%N Q /\ req_state Q = Some st /\ waiting st /\ fst (awaits st) = 0x61%N /\ out = [0x12; 0x7F; 0x04; 0]%N.
Proof.
  assert (HR : reached sample_slots (before 1)) by (eapply PropResponder.session_reached, before_session; lia).
  destruct (responder_handle_msg (before 1) (sample_rnd 9) (sample_request 3) big_buf) as [[r b] R'] eqn:E.
  assert (X : exists e, r = Replied [0x12; 0x7F; 0x04; 0]%N (Err e)).
  { change r with (fst (fst (r, b, R'))). rewrite <- E. vm_compute. eauto. }
  destruct X as (e & ->). destruct (req_state (driven_R 1)) as [st|] eqn:ES; [|exfalso; vm_compute in ES; discriminate].
  exists (before 1), (driven_R 1), st, [0x12; 0x7F; 0x04; 0]%N, e, b, R'. split; [exact HR|]. split; [exact E|].
  split; [apply sample_reached; lia|]. split; [exact ES|].
  assert (X : match req_state (driven_R 1) with Some (ReqCapabilities _) => True | _ => False end) by (vm_compute; exact I).
  rewrite ES in X. destruct st; try contradiction. split; [split; discriminate|auto].
Qed.
(** A response accepted by the sample requester. *)
Example C78_replay_example : req_setting /\ req_session [1; 2; 3]%N (driven_ev 3) (driven_R 3) /\
  In (sample_response 1) (received (driven_ev 3)) /\ bytes (sample_response 1).
Proof.
  split; [exact sample_req_setting|]. split; [exact (driven_session 3 ltac:(lia))|]. split; [|apply response_bytes].
  assert (X : nth_error (received (driven_ev 3)) 1 = Some (sample_response 1)) by (vm_compute; reflexivity).
  exact (nth_error_In _ _ X).
Qed.
