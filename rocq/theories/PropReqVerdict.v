(** C59: whatever bytes are handed to a requester with whatever history, the first
    failing check of SpecReqVerdict decides whether handle_msg succeeds, fails (and
    how) or panics; likewise for next_request. *)
From Verif Require Import Base BaseLemmas Config Encoding MsgCommon MsgVersion MsgCapabilities MsgAlgorithms MsgDigest
     MsgCertificates MsgChallenge MsgError Transcript Crypto Responder Requester SpecWire SpecMsgs SpecResponder SpecRequester SpecVerdict SpecReqVerdict
     PropTools PropTranscript VerdictLogic ReqStep ReqMsg PropRequester PropReqState ReqVerdict PropReqPanic Sample SampleRun SampleReq.

#[local] Opaque chain_bytes.
#[local] Arguments Nat.leb : simpl never.
Section PropReqVerdict.
Context {cfg : Config} {cr : Crypto}.

Lemma reached_inv root R st : req_setting -> req_reached root R -> req_state R = Some st -> st <> ReqError ->
  req_root R = root /\ t_wf (req_transcript R) /\ st_ok st.
Proof.
  intros HS HR ES NE. destruct (C41_success_means_session root R HS HR) as (ev & HX); [eauto|].
  destruct (session_now root ev R HS HX) as (st1 & ER & ES1 & W & SO & _). rewrite ES in ES1. injection ES1 as <-. auto.
Qed.
Lemma session_reached root ev R : req_session root ev R -> req_reached root R.
Proof.
  intros H. induction H as [|ev R fresh buf out buf' R' H IH FO E|ev R fresh buf e buf' R' H IH FO E|ev R rsp b R' H IH HB E].
  - exists []. split; [constructor|reflexivity].
  - destruct IH as (calls & F & ->). exists (calls ++ [CallNext fresh buf]). split; [apply Forall_app; repeat constructor; [exact F|apply FO|apply FO]|].
    unfold req_after. rewrite fold_left_app. cbn [fold_left req_after_call]. fold (req_after (requester_new root) calls). now rewrite E.
  - destruct IH as (calls & F & ->). exists (calls ++ [CallNext fresh buf]). split; [apply Forall_app; repeat constructor; [exact F|apply FO|apply FO]|].
    unfold req_after. rewrite fold_left_app. cbn [fold_left req_after_call]. fold (req_after (requester_new root) calls). now rewrite E.
  - destruct IH as (calls & F & ->). exists (calls ++ [CallMsg rsp]). split; [apply Forall_app; repeat constructor; [exact F|exact HB]|].
    unfold req_after. rewrite fold_left_app. cbn [fold_left req_after_call]. fold (req_after (requester_new root) calls). now rewrite E.
Qed.

Lemma hear_total root R rsp st : req_setting -> req_reached root R -> bytes rsp -> req_state R = Some st ->
  exists v, first_failing (hear_checks root rsp (t_get (req_transcript R)) st) v /\ ended v (fst (requester_handle_msg R rsp)).
Proof.
  intros HS HR HB ES. destruct (match st with ReqError => true | _ => false end) eqn:E0.
  { destruct st; try discriminate. exists Crash. split; [apply fails_here; auto|]. unfold requester_handle_msg. rewrite ES. exact I. }
  assert (NE : st <> ReqError) by (intros ->; discriminate). destruct (reached_inv root R st HS HR ES NE) as (ER & W & SO).
  destruct (D_hear root rsp HB HS st (req_transcript R) W SO) as (v & F & M). exists v. split; [exact F|].
  unfold requester_handle_msg. rewrite ES, ER. destruct (req_dispatch st root rsp (req_transcript R)) as [[st'|e|p] t']; cbn [fst] in *; exact M.
Qed.
Lemma ask_total root R fresh buf st : req_setting -> req_reached root R -> fresh_ok fresh -> req_state R = Some st ->
  exists v, first_failing (ask_checks (length buf) (t_get (req_transcript R)) st) v /\ ended v (fst (fst (requester_next_request R fresh buf))).
Proof.
  intros HS HR FO ES. unfold requester_next_request. rewrite ES. destruct (match st with ReqError | ReqNewSession => true | _ => false end) eqn:E0.
  { destruct st; try discriminate.
    - exists Crash. split; [apply fails_here; auto|]. exact I.
    - eexists. split; [apply fails_here; auto|]. reflexivity. }
  assert (NE : st <> ReqError) by (intros ->; discriminate). assert (NN : st <> ReqNewSession) by (intros ->; discriminate).
  destruct (reached_inv root R st HS HR ES NE) as (ER & W & SO).
  destruct (D_ask st fresh (mkQCtx buf (req_transcript R) st) FO W eq_refl NN) as (v & F & M). cbn [q_buf q_tr] in F.
  exists v. split; [exact F|]. destruct st; try congruence; destruct (write_req _ fresh _) as [r c]; cbn [fst] in *; exact M.
Qed.

(** handle_msg: some check fails first or all hold, and the call ends as that says. *)
Theorem C59_hear_verdict root R rsp st : req_setting -> req_reached root R -> bytes rsp -> req_state R = Some st ->
  exists v, first_failing (hear_checks root rsp (t_get (req_transcript R)) st) v /\
    ended v (fst (requester_handle_msg R rsp)) /\
    forall w, first_failing (hear_checks root rsp (t_get (req_transcript R)) st) w -> w = v.
Proof.
  intros HS HR HB ES. destruct (hear_total root R rsp st HS HR HB ES) as (v & F & M). exists v. split; [auto|]. split; [auto|].
  intros w F'. exact (first_failing_unique _ _ _ F' F).
Qed.
Corollary C59_accepts_iff root R rsp st : req_setting -> req_reached root R -> bytes rsp -> req_state R = Some st ->
  ((exists b R', requester_handle_msg R rsp = (Ok b, R')) <-> Forall fst (hear_checks root rsp (t_get (req_transcript R)) st)).
Proof.
  intros HS HR HB ES. destruct (hear_total root R rsp st HS HR HB ES) as (v & F & M).
  rewrite <- first_failing_answer.
  2: { clear. unfold hear_checks. destruct st as [| |s|s|s|s|]; try (destruct (qi_digests s)); repeat constructor; discriminate. }
  split.
  - intros (b & R' & E). rewrite E in M. cbn [fst] in M. destruct v; simpl in M; try contradiction. exact F.
  - intros F'. rewrite (first_failing_unique _ _ _ F F') in M. destruct (requester_handle_msg R rsp) as [[b|e|p] R']; simpl in M; try contradiction. eauto.
Qed.
Corollary C59_panics_iff root R rsp st : req_setting -> req_reached root R -> bytes rsp -> req_state R = Some st ->
  ((exists p R', requester_handle_msg R rsp = (Panic p, R')) <-> first_failing (hear_checks root rsp (t_get (req_transcript R)) st) Crash).
Proof.
  intros HS HR HB ES. destruct (hear_total root R rsp st HS HR HB ES) as (v & F & M). split.
  - intros (p & R' & E). rewrite E in M. cbn [fst] in M. destruct v; simpl in M; try contradiction. exact F.
  - intros F'. rewrite (first_failing_unique _ _ _ F F') in M. destruct (requester_handle_msg R rsp) as [[b|e|p] R']; simpl in M; try contradiction. eauto.
Qed.
Corollary C59_fails_iff root R rsp st e : req_setting -> req_reached root R -> bytes rsp -> req_state R = Some st ->
  (exists R', requester_handle_msg R rsp = (Err e, R')) ->
  exists why, first_failing (hear_checks root rsp (t_get (req_transcript R)) st) (Refuse why) /\ why e.
Proof.
  intros HS HR HB ES (R' & E). destruct (hear_total root R rsp st HS HR HB ES) as (v & F & M). rewrite E in M. cbn [fst] in M.
  destruct v as [|why|]; simpl in M; try contradiction. eauto.
Qed.
(** next_request, likewise. *)
Theorem C59_ask_verdict root R fresh buf st : req_setting -> req_reached root R -> fresh_ok fresh -> req_state R = Some st ->
  exists v, first_failing (ask_checks (length buf) (t_get (req_transcript R)) st) v /\
    ended v (fst (fst (requester_next_request R fresh buf))) /\
    forall w, first_failing (ask_checks (length buf) (t_get (req_transcript R)) st) w -> w = v.
Proof.
  intros HS HR FO ES. destruct (ask_total root R fresh buf st HS HR FO ES) as (v & F & M). exists v. split; [auto|]. split; [auto|].
  intros w F'. exact (first_failing_unique _ _ _ F' F).
Qed.
Corollary C59_sends_iff root R fresh buf st : req_setting -> req_reached root R -> fresh_ok fresh -> req_state R = Some st ->
  ((exists out buf' R', requester_next_request R fresh buf = (Ok out, buf', R')) <-> Forall fst (ask_checks (length buf) (t_get (req_transcript R)) st)).
Proof.
  intros HS HR FO ES. destruct (ask_total root R fresh buf st HS HR FO ES) as (v & F & M).
  rewrite <- first_failing_answer.
  2: { clear. unfold ask_checks. destruct st as [| |s|s|s|s|]; try (destruct (qi_digests s)); repeat constructor; discriminate. }
  split.
  - intros (b & buf' & R' & E). rewrite E in M. cbn [fst] in M. destruct v; simpl in M; try contradiction. exact F.
  - intros F'. rewrite (first_failing_unique _ _ _ F F') in M. destruct (requester_next_request R fresh buf) as [[[b|e|p] buf'] R']; simpl in M; try contradiction. eauto.
Qed.
(** After a panic of handle_msg every later call panics. *)
Theorem C59_after_panic R rsp p R' : requester_handle_msg R rsp = (Panic p, R') ->
  req_state R' = None /\ (forall rsp2, exists p2, fst (requester_handle_msg R' rsp2) = Panic p2) /\
  (forall fresh buf, exists p2, fst (fst (requester_next_request R' fresh buf)) = Panic p2).
Proof.
  intros H. assert (E : req_state R' = None).
  { unfold requester_handle_msg in H. destruct (req_state R) as [st|] eqn:ES; [|injection H as _ <-; exact ES].
    destruct (req_dispatch st (req_root R) rsp (req_transcript R)) as [[st'|e|q] t']; try discriminate. injection H as _ <-. reflexivity. }
  split; [exact E|]. unfold requester_handle_msg, requester_next_request. rewrite E. split; intros; cbn; eauto.
Qed.
End PropReqVerdict.

#[local] Existing Instance sample_cfg.
#[local] Existing Instance sample_crypto.
(** At every step of the sample run the hypotheses hold. *)
Lemma sample_reached n : n <= 6 -> req_reached [1; 2; 3]%N (driven_R n).
Proof. intros L. eapply session_reached. exact (driven_session n L). Qed.
(** A requester waiting for VERSION: the sample response passes all checks; with
    another code, another version byte, an unsupported version, a bad count, or cut
    short, exactly one check decides. *)
Example C59_example : req_setting /\ req_reached [1; 2; 3]%N sample_q0 /\ req_state sample_q0 = Some ReqVersion /\
  let fate rsp := first_failing (hear_checks [1; 2; 3]%N rsp [] ReqVersion) in
  fate [0x10; 0x04; 0; 0; 0; 1; 0; 0x11]%N Answer /\
  fate [0x10; 0x61; 0; 0]%N (Refuse (is (ReqUnexpectedMsgCode 0x04 0x10))) /\
  fate [0x11; 0x04; 0; 0]%N (Refuse (is ReqParseHeader)) /\
  fate [0x10; 0x04]%N Crash.
Proof.
  refine (conj sample_req_setting (conj _ (conj eq_refl _))).
  { exists []. split; [constructor|reflexivity]. }
  cbv zeta. unfold hear_checks. cbn [app awaits fst snd]. repeat apply conj.
  - assert (SV : says_versions [0x10; 0x04; 0; 0; 0; 1; 0; 0x11]%N [mkVE 1 1 0 0]).
    { split; [exists []; reflexivity|]. split; [repeat constructor|simpl; lia]. }
    repeat (apply holds_here); [simpl; lia|reflexivity|reflexivity|eauto| | |constructor].
    + exists [mkVE 1 1 0 0], (mkVE 1 1 0 0). split; [exact SV|]. split; [left; reflexivity|]. split; [right; left; reflexivity|].
      intros w [<-|[]] _. reflexivity.
    + unfold log_fits. apply Nat.leb_le. reflexivity.
  - apply holds_here; [simpl; lia|]. apply fails_here. discriminate.
  - apply holds_here; [simpl; lia|]. apply holds_here; [reflexivity|]. apply fails_here. discriminate.
  - apply fails_here. simpl. lia.
Qed.
(** In the middle of a session: CHALLENGE_AUTH with one bit of the certificate
    hash, of the signature, or of the slot changed. *)
Definition waiting5 : Requester := let '(_, _, R1) := requester_next_request (driven_R 5) (repeat 7%N 32) big_buf in R1.
Lemma waiting5_reached : req_reached [1; 2; 3]%N waiting5.
Proof.
  destruct (sample_reached 5 ltac:(lia)) as (calls & F & E). exists (calls ++ [CallNext (repeat 7%N 32) big_buf]). split.
  - apply Forall_app. split; [exact F|]. constructor; [|constructor]. split; [apply repeat_length|apply bytes_repeat; reflexivity].
  - unfold req_after. rewrite fold_left_app. cbn [fold_left req_after_call]. fold (req_after (requester_new [1; 2; 3]%N) calls). rewrite <- E. reflexivity.
Qed.
Lemma hear_refused root R rsp st e : req_setting -> req_reached root R -> bytes rsp -> req_state R = Some st -> fst (requester_handle_msg R rsp) = Err e ->
  exists why, first_failing (hear_checks root rsp (t_get (req_transcript R)) st) (Refuse why) /\ why e.
Proof.
  intros HS HR HB ES E. eapply C59_fails_iff; eauto. destruct (requester_handle_msg R rsp) as [r R']. cbn [fst] in E. subst r. eauto.
Qed.
Example C59_example_challenge : req_reached [1; 2; 3]%N waiting5 /\
  exists s, req_state waiting5 = Some (ReqChallenge s) /\
  let fate rsp e := exists why, first_failing (hear_checks [1; 2; 3]%N rsp (t_get (req_transcript waiting5)) (ReqChallenge s)) (Refuse why) /\ why e in
  fate (upd (sample_response 5) 4 99%N) (ReqChallengeAuth DigestMismatch) /\
  fate (upd (sample_response 5) 2 1%N) (ReqChallengeAuth IncorrectSlot) /\
  fate (upd (sample_response 5) 3 0%N) (ReqChallengeAuth SlotNotInMask).
Proof.
  refine (conj waiting5_reached _). eexists. split; [vm_compute; reflexivity|]. cbv zeta.
  match goal with |- context [ReqChallenge ?s] => assert (ES : req_state waiting5 = Some (ReqChallenge s)) by (vm_compute; reflexivity) end.
  repeat apply conj; (eapply hear_refused; [exact sample_req_setting|exact waiting5_reached|apply bytes_check; vm_compute; reflexivity|exact ES|vm_compute; reflexivity]).
Qed.
(** next_request with a buffer one byte too small. *)
Example C59_example_ask : first_failing (ask_checks 4 [] ReqVersion) Answer /\ first_failing (ask_checks 3 [] ReqVersion) (Refuse (is ReqBufferFull)) /\
  fst (fst (requester_next_request sample_q0 (repeat 7%N 32) [0; 0; 0]%N)) = Err ReqBufferFull.
Proof.
  split; [apply holds_here; [split; [lia|unfold log_fits; apply Nat.leb_le; reflexivity]|constructor]|].
  split; [apply fails_here; lia|]. vm_compute. reflexivity.
Qed.
Print Assumptions C59_hear_verdict.
Print Assumptions C59_ask_verdict.
