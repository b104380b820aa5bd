(** C63: a requester built to authenticate its peer, against a peer that says it
    cannot be authenticated. *)
From Verif Require Import Base BaseLemmas Config Encoding MsgCommon MsgVersion MsgCapabilities MsgAlgorithms MsgDigest
     MsgCertificates MsgChallenge MsgError Transcript Crypto Responder Requester SpecWire SpecMsgs SpecResponder SpecRequester
     PropTools PropRequester ReqStep ReqMsg PropReqState Sample SampleRun SampleReq.

Section PropDowngrade.
Context {cfg : Config} {cr : Crypto}.

(** The build wants authentication: both capabilities are configured. *)
Definition wants_authentication : Prop := In "CERT_CAP"%string CAPABILITIES /\ In "CHAL_CAP"%string CAPABILITIES.
(** The peer sent a CAPABILITIES message without one of the two flags. *)
Definition peer_declined (ev : list event) : Prop :=
  exists m ct flags, In m (received ev) /\ bytes m /\ only_bits rsp_flag_bits flags /\
    starts_with ([0x11; 0x61]%N ++ capabilities_layout ct flags) m /\
    (N.testbit flags cert_bit = false \/ N.testbit flags chal_bit = false).
(** The last message accepted is a CHALLENGE_AUTH that authenticates the peer,
    with the algorithms [al] selected in the session, for a chain the peer sent. *)
Definition peer_authenticated (root : list N) (ev : list event) : Prop :=
  exists al slot portion ss rsp, In (Got rsp) ev /\ code rsp = 0x03%N /\ selected ev al /\
    sig_len (al_base_asym al) = Some ss /\
    (exists m remainder, In m (received ev) /\ starts_with ([0x11; 0x02]%N ++ certificate_layout slot portion remainder) m) /\
    authenticates root al slot portion (events_log ss ev) ss rsp.

Lemma told_caps_of v own ct flags al ev : told_algorithms v own ct flags al ev ->
  flags_named ReqFlags_from_str CAPABILITIES own /\
  exists m, In m (received ev) /\ bytes m /\ only_bits rsp_flag_bits flags /\ starts_with ([0x11; 0x61]%N ++ capabilities_layout ct flags) m.
Proof.
  intros [ev0 n m na fs body [ev1 n1 m1 T1 F N1 SW OB HB] O _ _ _ _ _ _]. split; [auto|]. exists m1. split; [|auto].
  rewrite !received_app. apply in_or_app. left. apply in_or_app. right. apply in_or_app. right. simpl. auto.
Qed.
Lemma wanted_bits own : wants_authentication -> flags_named ReqFlags_from_str CAPABILITIES own ->
  N.testbit own cert_bit = true /\ N.testbit own chal_bit = true.
Proof.
  intros [A B] F. split; apply F.
  - exists "CERT_CAP"%string, 2%N. repeat split; auto.
  - exists "CHAL_CAP"%string, 4%N. repeat split; auto.
Qed.
Lemma declined v own ct flags al ev ev' i : wants_authentication -> told_algorithms v own ct flags al ev ->
  (i = cert_bit \/ i = chal_bit) -> both i own flags = false -> peer_declined (ev ++ ev').
Proof.
  intros W T I B. destruct (told_caps_of _ _ _ _ _ _ T) as (F & m & Im & HB & OB & SW). destruct (wanted_bits _ W F) as [B1 B2].
  exists m, ct, flags. rewrite received_app. split; [apply in_or_app; auto|]. split; [auto|]. split; [auto|]. split; [auto|].
  unfold both in B. destruct I as [-> | ->]; [left; rewrite B1 in B|right; rewrite B2 in B]; exact B.
Qed.

(** Completion without authentication needs a peer that announced it could not
    be authenticated. *)
Theorem C63_partial root ev R rsp R' : req_setting -> wants_authentication -> req_session root ev R -> bytes rsp ->
  requester_handle_msg R rsp = (Ok true, R') ->
  peer_authenticated root (ev ++ [Got rsp]) \/ peer_declined (ev ++ [Got rsp]).
Proof.
  intros HS W H HB E. destruct (C36_completion root ev R rsp true R' HS H HB E) as [C _]. specialize (C eq_refl).
  destruct C as (v & own & ct & flags & al & [(_ & T & B)|[(_ & (d & slot & portion & T) & _ & B)|
    (EC & B1 & B2 & d & slot & portion & ev0 & nonces & ss & T & -> & SL & A)]]).
  - right. pose proof (declined v own ct flags al _ [] _ W T (or_introl eq_refl) B) as D. now rewrite app_nil_r in D.
  - right. destruct (told_certificate_algorithms _ _ _ _ _ _ _ _ _ T) as (e0 & e1 & -> & T').
    exact (declined v own ct flags al _ _ _ W T' (or_intror eq_refl) B).
  - left. exists al, slot, portion, ss, rsp. split; [apply in_or_app; right; simpl; auto|]. split; [auto|]. split; [|split; [auto|split; [|exact A]]].
    + destruct (told_certificate_algorithms _ _ _ _ _ _ _ _ _ T) as (e0 & e1 & -> & T').
      destruct (told_selected _ _ _ _ _ _ T') as (m & body & I & Y). exists m, body. split; [|auto]. rewrite !received_app.
      apply in_or_app; left. apply in_or_app; left. apply in_or_app; auto.
    + destruct T as [ev1 n m r T0 SW L HBm]. exists m, r. split; [|auto]. rewrite !received_app.
      apply in_or_app; left. apply in_or_app; left. apply in_or_app; right. apply in_or_app; right. simpl; auto.
Qed.
(** A peer that announces both flags is always authenticated. *)
Corollary C63_announced_partial root ev R rsp R' : req_setting -> wants_authentication -> req_session root ev R -> bytes rsp ->
  (forall m ct flags, In m (received (ev ++ [Got rsp])) -> only_bits rsp_flag_bits flags ->
     starts_with ([0x11; 0x61]%N ++ capabilities_layout ct flags) m ->
     N.testbit flags cert_bit = true /\ N.testbit flags chal_bit = true) ->
  requester_handle_msg R rsp = (Ok true, R') -> peer_authenticated root (ev ++ [Got rsp]).
Proof.
  intros HS W H HB A E. destruct (C63_partial root ev R rsp R' HS W H HB E) as [P|(m & ct & flags & I & _ & OB & SW & B)]; [exact P|].
  destruct (A m ct flags I OB SW) as [X Y]. destruct B; congruence.
Qed.
End PropDowngrade.

#[local] Existing Instance sample_cfg.
#[local] Existing Instance sample_crypto.
(** A peer without certificate capability: VERSION, CAPABILITIES with no flags, ALGORITHMS. *)
Definition mute_capabilities : list N := [0x11; 0x61; 0; 0; 0; 12; 0; 0; 0; 0; 0; 0]%N.
Definition mute_responses : list (list N) := [sample_response 0; mute_capabilities; sample_response 2].
Definition downgraded : list event * bool * Requester :=
  match drive 2 mute_responses sample_q0 with Some x => x | None => ([], false, sample_q0) end.
Definition downgraded_ev : list event := Eval vm_compute in let '(ev, _, _) := downgraded in ev.
Definition downgraded_R : Requester := let '(_, _, R) := downgraded in R.
Lemma downgraded_run : drive 2 mute_responses sample_q0 = Some (downgraded_ev, true, downgraded_R).
Proof. vm_compute. reflexivity. Qed.
(** The whole conversation of a requester with CERT_CAP and CHAL_CAP and that
    peer: three answers, and the session is ready; no certificate was seen, no
    signature checked, and no CHALLENGE sent. *)
Theorem C63_refuted : req_setting /\ wants_authentication /\ exists ev R, req_session [1; 2; 3]%N ev R /\
  received ev = [sample_response 0; mute_capabilities; sample_response 2] /\
  map event_code ev = [0x84; 0x04; 0xE1; 0x61; 0xE3; 0x63]%N /\
  req_state R = Some ReqNewSession /\ ~ peer_authenticated [1; 2; 3]%N ev /\ peer_declined ev.
Proof.
  split; [exact sample_req_setting|]. split. { split; vm_compute; tauto. }
  exists downgraded_ev, downgraded_R.
  split. { apply (drive_session [1; 2; 3]%N mute_responses 2%N sample_q0 [] downgraded_ev true downgraded_R (req_session_new _)); [| |exact downgraded_run].
    - repeat (constructor; [vm_compute; reflexivity|]). constructor.
    - vm_compute. reflexivity. }
  split; [vm_compute; reflexivity|]. split; [vm_compute; reflexivity|]. split; [vm_compute; reflexivity|]. split.
  - intros (al & slot & portion & ss & rsp & I & C & _). unfold downgraded_ev in I. cbn [In] in I.
    repeat (destruct I as [I|I]; [first [discriminate I|injection I as <-; vm_compute in C; discriminate C]|]). exact I.
  - exists mute_capabilities, 12%N, 0%N. split; [vm_compute; tauto|]. split; [apply bytes_check; vm_compute; reflexivity|].
    split; [intros i; rewrite N.bits_0; discriminate|]. split; [exists []; vm_compute; reflexivity|]. left. reflexivity.
Qed.
(** The full run of the sample: the peer announced both flags, and is authenticated. *)
Lemma sample_wants : wants_authentication.
Proof. split; vm_compute; tauto. Qed.
Lemma announced_flags ct flags m : starts_with ([0x11; 0x61]%N ++ capabilities_layout ct flags) m ->
  code m = 0x61%N /\ nth 8 m 0%N = (flags mod 256)%N.
Proof. intros (r & ->). split; reflexivity. Qed.
Lemma low_bit flags i : (i < 8)%N -> N.testbit flags i = N.testbit (flags mod 256) i.
Proof. intros L. change 256%N with (2 ^ 8)%N. now rewrite N.mod_pow2_bits_low. Qed.
Lemma sample_announced m ct flags : In m sample_responses -> starts_with ([0x11; 0x61]%N ++ capabilities_layout ct flags) m ->
  N.testbit flags cert_bit = true /\ N.testbit flags chal_bit = true.
Proof.
  intros I SW. apply announced_flags in SW as [C F]. rewrite !(low_bit flags) by reflexivity. rewrite <- F.
  unfold sample_responses in I. cbn [In] in I.
  repeat (destruct I as [I|I]; [subst m; first [discriminate C|split; reflexivity]|]). destruct I.
Qed.
Example C63_example : exists out R1 R2, req_session [1; 2; 3]%N (driven_ev 5 ++ [Sent out]) R1 /\
  requester_handle_msg R1 (sample_response 5) = (Ok true, R2) /\
  peer_authenticated [1; 2; 3]%N ((driven_ev 5 ++ [Sent out]) ++ [Got (sample_response 5)]).
Proof.
  destruct C36_example as (H & _ & _ & out & buf' & R1 & R2 & E1 & E2 & _). exists out, R1, R2.
  assert (S1 : req_session [1; 2; 3]%N (driven_ev 5 ++ [Sent out]) R1).
  { eapply req_session_sent; [exact H| |exact E1]. split; [reflexivity|]. apply bytes_repeat. reflexivity. }
  split; [exact S1|]. split; [exact E2|]. eapply C63_announced_partial; [exact sample_req_setting|exact sample_wants|exact S1|exact (response_bytes 5)| |exact E2].
  intros m ct flags I _ SW. eapply sample_announced; [|exact SW]. rewrite !received_app in I.
  replace (received (driven_ev 5)) with (firstn 5 sample_responses) in I by (vm_compute; reflexivity).
  rewrite <- (firstn_skipn 5 sample_responses). apply in_app_iff in I as [I|I]; [apply in_app_iff in I as [I|[]]|]; apply in_or_app; auto.
Qed.

(** begin_session is not guarded either: it turns any requester, in whatever
    state, into a session; here one that has not received a single message. *)
Theorem C63_begin_session_refuted : forall root, exists R S, req_session root [] R /\
  req_state R = Some ReqVersion /\ requester_begin_session R = S /\ rs_data S = R /\ ~ peer_authenticated root [].
Proof.
  intros root. exists (requester_new root), (mkRequesterSession (requester_new root)).
  split; [constructor|]. split; [reflexivity|]. split; [reflexivity|]. split; [reflexivity|].
  intros (al & slot & portion & ss & rsp & [] & _).
Qed.
