(** C68: which protocol version the messages carry. *)
From Verif Require Import Base BaseLemmas Config Encoding MsgCommon MsgVersion MsgCapabilities MsgAlgorithms MsgDigest
     MsgCertificates MsgChallenge MsgError Transcript Crypto Responder Requester SpecWire SpecMsgs SpecResponder SpecRequester
     FlagLemmas PropTools RspParts PropResponder PropRspState PropRequester PropReqState Sample SampleRun SampleReq.

#[local] Opaque chain_bytes.

(** The version byte of a message, and the one a negotiated version calls for
    (DSP0274: major version in the upper, minor version in the lower half). *)
Definition version_byte (msg : list N) : N := nth 0 msg 0%N.
Definition byte_of_version (v : VersionEntry) : N := (16 * ve_major v + ve_minor v)%N.
Definition event_msg (e : event) : list N := match e with Sent m => m | Got m => m end.

Section Props.
Context {cfg : Config} {cr : Crypto}.

(** * Requester *)
Definition in_1_1 (e : event) : Prop := version_byte (event_msg e) = 0x11%N.
(** Nothing but GET_VERSION so far; or VERSION was accepted after them, and what
    follows carries 1.1. *)
Definition versioned (ev : list event) (v : VersionEntry) : Prop :=
  exists pre post, ev = pre ++ post /\ told_version v pre /\ Forall in_1_1 post.

Lemma starts_version c b p m : starts_with ([c; b]%N ++ p) m -> version_byte m = c.
Proof. intros (r & ->). reflexivity. Qed.
Lemma asks_1_1 n m : version_byte m = 0x11%N -> Forall in_1_1 (asks n m).
Proof. intros H. unfold asks. induction n; constructor; auto. Qed.
Lemma challenges_1_1 slot l : Forall in_1_1 (challenges slot l).
Proof. unfold challenges. induction l; constructor; auto. reflexivity. Qed.
Lemma versioned_more ev v more : versioned ev v -> Forall in_1_1 more -> versioned (ev ++ more) v.
Proof.
  intros (pre & post & -> & T & F) M. exists pre, (post ++ more). rewrite app_assoc. repeat split; auto.
  apply Forall_app. auto.
Qed.
Lemma versioned_got ev v n q m : versioned ev v -> version_byte q = 0x11%N -> version_byte m = 0x11%N ->
  versioned (ev ++ asks n q ++ [Got m]) v.
Proof. intros H Q M. apply versioned_more; auto. apply Forall_app. split; [now apply asks_1_1|]. constructor; auto. Qed.

Lemma versioned_version v ev : told_version v ev -> versioned ev v.
Proof. intros H. exists ev, []. rewrite app_nil_r. auto. Qed.
Lemma versioned_capabilities v own ct fl ev : told_capabilities v own ct fl ev -> versioned ev v.
Proof. intros [ev0 n m T _ _ SW _ _]. apply versioned_got; [now apply versioned_version|reflexivity|eapply starts_version; eauto]. Qed.
Lemma versioned_algorithms v own ct fl al ev : told_algorithms v own ct fl al ev -> versioned ev v.
Proof.
  intros [ev0 n m na fs body T _ SW _ _ _ _ _].
  apply versioned_got; [eapply versioned_capabilities; eauto|reflexivity|eapply starts_version; eauto].
Qed.
Lemma versioned_digests v own ct fl al d ev : told_digests v own ct fl al d ev -> versioned ev v.
Proof. intros [ev0 n m T _ SW _ _]. apply versioned_got; [eapply versioned_algorithms; eauto|reflexivity|eapply starts_version; eauto]. Qed.
Lemma versioned_certificate v own ct fl al d slot portion ev : told_certificate v own ct fl al d slot portion ev -> versioned ev v.
Proof. intros [ev0 n m r T SW _ _]. apply versioned_got; [eapply versioned_digests; eauto|reflexivity|eapply starts_version; eauto]. Qed.

(** Whatever a requester did: it has sent GET_VERSION only, or it accepted a
    VERSION message, selecting the highest common version [v], and every message
    sent or accepted since then carries 1.1.  All GET_VERSION messages and that
    VERSION message carry 1.0. *)
Theorem C68_requester_headers root ev R : req_setting -> req_session root ev R ->
  (exists n, ev = repeat (Sent get_version_bytes) n) \/
  (exists n m es v post, ev = repeat (Sent get_version_bytes) n ++ [Got m] ++ post /\
     starts_with ([0x10; 0x04]%N ++ version_body es) m /\ highest_common es v /\
     Forall (fun e => version_byte (event_msg e) = 0x11%N) post).
Proof.
  intros HS H. destruct (C36_session_grammar root ev R HS H) as (st & _ & NW).
  assert (X : (exists n, ev = asks n get_version_bytes) \/ exists v, versioned ev v).
  { destruct st as [| |s|s|s|s|]; cbn [req_now] in NW.
    - tauto.
    - left. exact NW.
    - destruct NW as (ev0 & n & own & T & -> & _). right. eexists. apply versioned_more; [eapply versioned_version; eauto|now apply asks_1_1].
    - destruct NW as (ev0 & n & own & T & -> & _). right. eexists. apply versioned_more; [eapply versioned_capabilities; eauto|now apply asks_1_1].
    - destruct NW as [H0 _]. right. eexists. destruct (qi_digests s); destruct H0 as (ev0 & n & T & ->).
      + apply versioned_more; [eapply versioned_digests; eauto|now apply asks_1_1].
      + apply versioned_more; [eapply versioned_algorithms; eauto|now apply asks_1_1].
    - destruct NW as (ev0 & nonces & d & T & -> & _). right. eexists.
      apply versioned_more; [eapply versioned_certificate; eauto|apply challenges_1_1].
    - right. destruct NW as (v & own & ct & fl & al & [[_ T]|[(_ & d & slot & portion & T)|(d & slot & portion & ev0 & nonces & rsp & ss & _ & T & _ & -> & _ & A)]]).
      + eexists. eapply versioned_algorithms; eauto.
      + eexists. eapply versioned_certificate; eauto.
      + eexists. apply versioned_more; [eapply versioned_certificate; eauto|]. apply Forall_app. split; [apply challenges_1_1|].
        constructor; auto. destruct A as (m & rsvd & olen & chain & SW & _). exact (starts_version _ _ _ _ SW). }
  destruct X as [X|(v & pre & post & -> & T & F)]; [left; exact X|right].
  destruct T as [n m es SW F1 L HC B]. exists n, m, es, v, post. rewrite <- app_assoc. auto.
Qed.

(** The events before [Got m], the first response accepted, are determined. *)
Lemma first_got n n' m m' post post' :
  repeat (Sent get_version_bytes) n ++ [Got m] ++ post = repeat (Sent get_version_bytes) n' ++ [Got m'] ++ post' ->
  m = m' /\ post = post'.
Proof.
  revert n'. induction n as [|n IH]; intros [|n'] E; cbn [repeat app] in E; try discriminate.
  - injection E; auto.
  - injection E. apply IH.
Qed.

(** When the peer's VERSION message leads to version [v]: all later messages
    carry [v] if [v] is 1.1, and none does if [v] is 1.0.  No other version is
    ever selected. *)
Theorem C68_requester_partial root ev R n m es v post : req_setting -> req_session root ev R ->
  ev = repeat (Sent get_version_bytes) n ++ [Got m] ++ post ->
  starts_with ([0x10; 0x04]%N ++ version_body es) m -> highest_common es v ->
  (v = mkVE 1 1 0 0 /\ Forall (fun e => version_byte (event_msg e) = byte_of_version v) post) \/
  (v = mkVE 1 0 0 0 /\ Forall (fun e => version_byte (event_msg e) <> byte_of_version v) post).
Proof.
  intros HS H EV SW (_ & IV & _). destruct (C68_requester_headers root ev R HS H) as [(k & E)|(k & m1 & es1 & v1 & post1 & E & _ & _ & F)].
  - exfalso. rewrite E in EV. clear -EV. revert k EV. induction n as [|n IH]; intros [|k] EV; cbn [repeat app] in EV; try discriminate.
    injection EV. apply IH.
  - rewrite EV in E. apply first_got in E as [_ ->].
    destruct IV as [<-|[<-|[]]]; [right|left]; (split; [reflexivity|]); eapply Forall_impl; try exact F; cbv beta; intros a ->; [discriminate|reflexivity].
Qed.

(** * Responder *)
(** Requests are answered in the version they came in: 1.0 for GET_VERSION and
    1.1 for all others. *)
Theorem C68_responder_headers slots ex R : setting slots -> session slots ex R ->
  Forall (fun x => version_byte (fst x) = version_byte (snd x) /\
                   version_byte (fst x) = (if (code (fst x) =? 0x84) then 0x10 else 0x11)%N) ex.
Proof.
  intros HS H. induction H as [|R HR|ex R rnd req rsp out rsp' R' H IH HB RK HH]; [constructor|constructor|].
  apply Forall_app. split; [exact IH|]. constructor; [|constructor]. cbn [fst snd].
  destruct (step_sound slots R rnd req rsp out rsp' R' HS (session_reached _ _ _ H) HB RK HH) as (st & st' & log' & _ & _ & _ & SV & _).
  destruct SV as [st log _ (r & ->)|s log ct fl own o (r & ->) _ _ _ ->|s log body na al es fs o (r & ->) _ _ ->
                 |s log mask o (r & ->) _ _ _ ->|s log slot off len o (r & ->) _ _ _ _ ->|s log slot t nonce mask filled ss sg o (r & ->) _ _ _ _ _ _ _ -> _ _];
    split; reflexivity.
Qed.
(** Every ERROR response carries 1.2, a version the responder's own VERSION
    response does not list. *)
Theorem C68_error_header slots R rnd req rsp out e rsp' R' : reached slots R ->
  responder_handle_msg R rnd req rsp = (Replied out (Err e), rsp', R') ->
  out = [] \/ version_byte out = 0x12%N.
Proof.
  intros HR H. destruct (C26_error_response slots R rnd req rsp out e rsp' R' HR H) as (_ & _ & _ & A & B).
  destruct (Nat.le_gt_cases (length (error_reply e)) (length rsp)) as [L|L].
  - right. rewrite (A L). reflexivity.
  - left. exact (B L).
Qed.
End Props.

#[local] Existing Instance sample_cfg.
#[local] Existing Instance sample_crypto.

(** * The property itself is false *)
(** A peer that supports 1.0 only: the requester selects 1.0 and goes on in 1.1. *)
Definition only_1_0 : list N := [0x10; 0x04; 0; 0; 0; 1; 0x00; 0x10]%N.
Definition old_peer := drive 2 [only_1_0; sample_response 1; sample_response 2] sample_q0.
Definition old_peer_ev : list event := Eval vm_compute in match old_peer with Some (ev, _, _) => ev | None => [] end.
Definition old_peer_R : Requester := match old_peer with Some (_, _, R) => R | None => sample_q0 end.
Lemma old_peer_run : old_peer = Some (old_peer_ev, false, old_peer_R).
Proof. vm_compute. reflexivity. Qed.
Lemma old_peer_session : req_session [1; 2; 3]%N old_peer_ev old_peer_R.
Proof.
  pose proof old_peer_run as X. apply (drive_session [1; 2; 3]%N _ _ _ [] _ _ _ (req_session_new _)) in X; [exact X| |].
  - repeat (constructor; [vm_compute; reflexivity|]). constructor.
  - apply N.ltb_lt. reflexivity.
Qed.
Lemma only_1_0_common : highest_common [mkVE 1 0 0 0] (mkVE 1 0 0 0).
Proof.
  split; [left; reflexivity|]. split; [left; reflexivity|]. intros w [<-|[]] _. apply N.le_refl.
Qed.
Theorem C68_version_1_0_refuted : exists ev R pre m post,
  req_setting /\ req_session [1; 2; 3]%N ev R /\ ev = pre ++ [Got m] ++ post /\ length post = 4 /\
  starts_with ([0x10; 0x04]%N ++ version_body [mkVE 1 0 0 0]) m /\ highest_common [mkVE 1 0 0 0] (mkVE 1 0 0 0) /\
  Forall (fun e => version_byte (event_msg e) <> byte_of_version (mkVE 1 0 0 0)) post.
Proof.
  exists old_peer_ev, old_peer_R, (firstn 1 old_peer_ev), only_1_0, (skipn 2 old_peer_ev).
  split; [exact sample_req_setting|]. split; [exact old_peer_session|]. split; [reflexivity|]. split; [reflexivity|].
  split; [exists []; reflexivity|]. split; [exact only_1_0_common|].
  repeat (constructor; [discriminate|]). constructor.
Qed.
(** A responder whose own VERSION response lists 1.0 and 1.1 sends an ERROR in 1.2. *)
Theorem C68_error_refuted : exists R req out e buf' R',
  reached sample_slots R /\ bytes req /\ session sample_slots [(get_version_bytes, version_reply)] R /\
  responder_handle_msg R (sample_rnd 1) req big_buf = (Replied out (Err e), buf', R') /\
  out <> [] /\ ~ In (version_byte out) (map byte_of_version [mkVE 1 0 0 0; mkVE 1 1 0 0]).
Proof.
  destruct (responder_handle_msg sample_r0 (sample_rnd 1) get_version_bytes big_buf) as [[a b] R] eqn:E.
  assert (EA : a = Replied version_reply (Ok tt)).
  { change a with (fst (fst (a, b, R))). rewrite <- E. vm_compute. reflexivity. }
  assert (ER : R = snd (responder_handle_msg sample_r0 (sample_rnd 1) get_version_bytes big_buf)) by now rewrite E.
  rewrite EA in E. clear EA.
  assert (S : session sample_slots [(get_version_bytes, version_reply)] R).
  { apply (session_step sample_slots [] sample_r0 (sample_rnd 1) _ big_buf _ b R); [constructor| | |exact E].
    - apply bytes_check; reflexivity.
    - split; [reflexivity|]. apply bytes_check. reflexivity. }
  exists R, [0x11; 0xE3; 0; 0]%N, [0x12; 0x7F; 0x04; 0]%N.
  destruct (responder_handle_msg R (sample_rnd 1) [0x11; 0xE3; 0; 0]%N big_buf) as [[a' b'] R'] eqn:E'.
  eexists _, b', R'. split; [exact (session_reached _ _ _ S)|]. split; [apply bytes_check; reflexivity|]. split; [exact S|].
  split; [|split; [discriminate|]].
  - f_equal. f_equal. change a' with (fst (fst (a', b', R'))). rewrite <- E', ER. vm_compute. reflexivity.
  - vm_compute. intuition discriminate.
Qed.
(** The ordinary case: the sample run negotiates 1.1, and ten messages follow. *)
Example C68_example : exists pre m post, driven_ev 6 = pre ++ [Got m] ++ post /\ length post = 10 /\
  starts_with ([0x10; 0x04]%N ++ version_body [mkVE 1 0 0 0; mkVE 1 1 0 0]) m /\
  highest_common [mkVE 1 0 0 0; mkVE 1 1 0 0] (mkVE 1 1 0 0) /\
  forallb (fun e => (version_byte (event_msg e) =? 0x11)%N) post = true.
Proof.
  exists (firstn 1 (driven_ev 6)), (sample_response 0), (skipn 2 (driven_ev 6)).
  split; [vm_compute; reflexivity|]. split; [vm_compute; reflexivity|]. split; [exists []; vm_compute; reflexivity|].
  split; [|vm_compute; reflexivity].
  split; [right; left; reflexivity|]. split; [right; left; reflexivity|].
  intros w [<-|[<-|[]]] _; vm_compute; discriminate.
Qed.
Print Assumptions C68_requester_headers.
Print Assumptions C68_requester_partial.
Print Assumptions C68_responder_headers.
Print Assumptions C68_version_1_0_refuted.
Print Assumptions C68_error_refuted.
