(** C42: which certificate the requester authenticates with. *)
From Verif Require Import Base BaseLemmas Config Encoding MsgCommon MsgVersion MsgCapabilities MsgAlgorithms MsgDigest
     MsgCertificates MsgChallenge MsgError Transcript Crypto Responder Requester SpecWire SpecMsgs SpecResponder SpecRequester
     FlagLemmas PropTools PropTranscript PropVersionCaps PropAlg PropCerts PropChal PropGeneric PropTables PropDer RspParts RspStep
     ReqStep ReqMsg PropRequester PropReqState Sample SampleRun SampleReq.

#[local] Opaque chain_bytes.
#[local] Arguments Nat.leb : simpl never.
Section PropReqLimits.
Context {cfg : Config} {cr : Crypto}.

(** The messages written so far. *)
Definition sent (ev : list event) : list (list N) := flat_map (fun e => match e with Sent m => [m] | Got _ => [] end) ev.
Lemma sent_app a b : sent (a ++ b) = sent a ++ sent b.
Proof. apply flat_map_app. Qed.
Lemma sent_asks n m x : In x (sent (asks n m)) -> x = m.
Proof. induction n; simpl; [tauto|]. intros [H|H]; auto. Qed.
Lemma sent_challenges slot l x : In x (sent (challenges slot l)) -> exists nonce, x = challenge_msg slot nonce.
Proof. induction l; simpl; [tauto|]. intros [H|H]; eauto. Qed.
Lemma sent_more ev n q m x : In x (sent (ev ++ asks n q ++ [Got m])) -> In x (sent ev) \/ x = q.
Proof.
  rewrite !sent_app. intros H. apply in_app_or in H as [H|H]; [auto|]. apply in_app_or in H as [H|H]; [right; eapply sent_asks; eauto|].
  simpl in H. tauto.
Qed.
Lemma told_certificate_sent v own ct fl al d slot portion ev m : told_certificate v own ct fl al d slot portion ev ->
  In m (sent ev) -> In (code m) [0x84; 0xE1; 0xE3; 0x81]%N \/ m = get_certificate_msg.
Proof.
  intros [ev0 n0 m0 r0 [ev1 n1 m1 [ev2 n2 m2 na fs body [ev3 n3 m3 [n4 m4 es _ _ _ _ _] _ _ _ _ _] _ _ _ _ _ _ _] _ _ _ _] _ _ _] I.
  apply sent_more in I as [I|I]; [|auto]. left.
  apply sent_more in I as [I|I]; [|subst; simpl; auto].
  apply sent_more in I as [I|I]; [|subst; simpl; auto].
  apply sent_more in I as [I|I]; [|subst; simpl; auto].
  change (asks n4 get_version_bytes ++ [Got m4]) with ([] ++ asks n4 get_version_bytes ++ [Got m4]) in I.
  apply sent_more in I as [I|I]; [simpl in I; tauto|subst; simpl; auto].
Qed.
(** Proved: slot 0 is asked for; the one CERTIFICATE message accepted gives the
    slot and the chain the requester then uses throughout.  Not true: that this
    slot is the one asked for, and that the announced digest is that of the chain. *)
Theorem C42_certificate_used_partial root ev R rsp R' : req_setting -> req_session root ev R -> bytes rsp ->
  requester_handle_msg R rsp = (Ok true, R') -> code rsp = 0x03%N ->
  (forall m, In m (sent ev) -> code m = 0x82%N -> m = [0x11; 0x82]%N ++ get_certificate_layout 0 0 (N.of_nat MAX_CERT_CHAIN_SIZE mod 65536)) /\
  exists al slot portion remainder mc ss,
    selected ev al /\ sig_len (al_base_asym al) = Some ss /\
    In mc (received ev) /\ starts_with ([0x11; 0x02]%N ++ certificate_layout slot portion remainder) mc /\
    (forall m, In m (received ev) -> code m = 0x02%N -> m = mc) /\
    (forall m, In m (sent ev) -> code m = 0x83%N -> exists nonce, m = [0x11; 0x83]%N ++ challenge_layout slot MHNone nonce) /\
    authenticates root al slot portion (events_log ss (ev ++ [Got rsp])) ss rsp.
Proof.
  intros HS H HB E C3. destruct (C36_completion root ev R rsp true R' HS H HB E) as [X _].
  destruct (X eq_refl) as (v & own & ct & fl & al & [(C & _)|[(C & _)|(_ & _ & _ & d & slot & portion & ev0 & nonces & ss & T & EV & SL & A)]]).
  1,2: rewrite C in C3; discriminate.
  assert (S1 : forall m, In m (sent ev) -> In (code m) [0x84; 0xE1; 0xE3; 0x81]%N \/ m = get_certificate_msg \/ exists nonce, m = challenge_msg slot nonce).
  { intros m I. rewrite EV, sent_app in I. apply in_app_or in I as [I|I].
    - destruct (told_certificate_sent _ _ _ _ _ _ _ _ _ _ T I); auto.
    - right. right. eapply sent_challenges; eauto. }
  split.
  - intros m I CM. destruct (S1 m I) as [I'|[->|(nonce & ->)]]; [|reflexivity|discriminate CM].
    rewrite CM in I'. simpl in I'. intuition discriminate.
  - inversion T as [ev1 n mc r T0 SW LP BM EV0]. exists al, slot, portion, r, mc, ss.
    assert (IN : In mc (received ev)).
    { rewrite EV, received_app, <- EV0, !received_app. apply in_or_app. left. apply in_or_app. right. apply in_or_app. right. simpl. auto. }
    split. { destruct (told_certificate_algorithms _ _ _ _ _ _ _ _ _ T) as (e0 & e1 & X1 & T'). destruct (told_selected _ _ _ _ _ _ T') as (m & body & I & Y).
      exists m, body. split; [|auto]. rewrite EV, X1, !received_app. apply in_or_app. left. apply in_or_app. auto. }
    split; [auto|]. split; [auto|]. split; [auto|]. split; [|split; [|exact A]].
    + intros m I CM. destruct (C36_protocol_order root ev R HS H) as (k & K).
      apply (NoDup_map_inj code (received ev)); auto; [rewrite K; apply steps_nodup|]. rewrite CM. symmetry. eapply starts_code; eauto.
    + intros m I CM. destruct (S1 m I) as [I'|[->|X1]]; [|discriminate CM|exact X1].
      rewrite CM in I'. simpl in I'. intuition discriminate.
Qed.
End PropReqLimits.

#[local] Existing Instance sample_cfg.
#[local] Existing Instance sample_crypto.
Example C42_example : req_session [1; 2; 3]%N (driven_ev 5) (driven_R 5) /\
  exists out buf' R1 R2, requester_next_request (driven_R 5) (repeat 7%N 32) big_buf = (Ok out, buf', R1) /\
    requester_handle_msg R1 (sample_response 5) = (Ok true, R2) /\ code (sample_response 5) = 0x03%N.
Proof. destruct C36_example as (A & _ & _ & B). exact (conj A B). Qed.

(** A responder holding some key pair with a certificate the requester trusts
    answers with that certificate as slot 3's, after announcing other digests. *)
Definition forged_digests : list N := [0x11; 0x01]%N ++ digests_layout 5 9 (fun _ => repeat 0xEE%N 32).
Definition forged_chain : list N := skipn 8 (sample_response 4).
Definition forged_certificate : list N := [0x11; 0x02]%N ++ certificate_layout 3 forged_chain 0.
Definition forged_run : list event * bool * Requester :=
  match drive 2 (firstn 3 sample_responses ++ [forged_digests; forged_certificate]) sample_q0 with Some x => x | None => ([], false, sample_q0) end.
Definition forged_challenged : Requester := let '(_, _, R) := requester_next_request (snd forged_run) (repeat 7%N 32) big_buf in R.
Definition forged_unsigned : list N :=
  [0x11; 0x03; 3; 8]%N ++ toy_hash 1 forged_chain ++ firstn (length (sample_response 5) - 100) (skipn 36 (sample_response 5)).
Definition forged_auth : list N := Eval vm_compute in
  forged_unsigned ++ repeat (toy_key (toy_hash 1 (t_get (req_transcript forged_challenged) ++ forged_unsigned))) 64.
Definition forged_rounds : list (list N * list N) := Eval vm_compute in
  combine (sent (fst (fst forged_run))) (received (fst (fst forged_run))).
Lemma prompted_rounds l out : prompted (flat_map (fun p => [Sent (fst p); Got (snd p)]) l ++ [Sent out]).
Proof.
  induction l as [|[a b] l IH]; intros pre rsp post E; cbn [flat_map app fst snd] in E.
  - destruct pre as [|x [|y pre]]; cbn in E; try discriminate. 
  - destruct pre as [|x [|y pre]]; cbn [app] in E.
    + discriminate.
    + injection E as <- _ _. now exists [], a.
    + injection E as <- <- E. destruct (IH _ _ _ E) as (pre' & o & ->). now exists (Sent a :: Got b :: pre'), o.
Qed.
Theorem C42_refuted : exists root ev R rsp R',
  req_setting /\ req_session root ev R /\ prompted ev /\ bytes rsp /\
  requester_handle_msg R rsp = (Ok true, R') /\ code rsp = 0x03%N /\
  exists out0 out1 out2 out3 out4 rsp0 rsp1 rsp2 mask dig portion,
    ev = [Sent out0; Got rsp0; Sent out1; Got rsp1; Sent out2; Got rsp2;
          Sent ([0x11; 0x81; 0; 0])%N; Got ([0x11; 0x01]%N ++ digests_layout NUM_SLOTS mask dig);
          Sent out3; Got ([0x11; 0x02]%N ++ certificate_layout 3 portion 0); Sent out4] /\
    out3 = [0x11; 0x82]%N ++ get_certificate_layout 0 0 1024 /\
    (forall i, i < NUM_SLOTS -> dig i <> sha 1 portion).
Proof.
  exists [1; 2; 3]%N.
  destruct (drive 2 (firstn 3 sample_responses ++ [forged_digests; forged_certificate]) sample_q0) as [[[ev b] R]|] eqn:E.
  2: { vm_compute in E. discriminate. }
  assert (E' := E). apply (drive_session [1; 2; 3]%N _ _ _ [] _ _ _ (req_session_new _)) in E'.
  2: { repeat (constructor; [vm_compute; reflexivity|]). constructor. }
  2: { vm_compute. reflexivity. }
  destruct (requester_next_request R (repeat 7%N 32) big_buf) as [[r buf'] R1] eqn:EN.
  assert (ER : R = snd forged_run) by (unfold forged_run; now rewrite E).
  assert (ER1 : R1 = forged_challenged) by (unfold forged_challenged; now rewrite <- ER, EN).
  assert (OK : match r with Ok _ => True | _ => False end).
  { replace r with (fst (fst (requester_next_request R (repeat 7%N 32) big_buf))) by (now rewrite EN). rewrite ER. vm_compute. exact I. }
  destruct r as [out|e|p]; try tauto.
  exists (ev ++ [Sent out]), R1, forged_auth. 
  assert (HH : fst (requester_handle_msg R1 forged_auth) = Ok true) by (rewrite ER1; vm_compute; reflexivity).
  destruct (requester_handle_msg R1 forged_auth) as [r2 R2]. cbn [fst] in HH. subst r2. exists R2.
  split; [exact sample_req_setting|]. split.
  { eapply req_session_sent; [exact E'| |exact EN]. split; [reflexivity|]. apply bytes_repeat. reflexivity. }
  assert (EV : ev = fst (fst forged_run)) by (unfold forged_run; now rewrite E).
  split; [rewrite EV; apply (prompted_rounds forged_rounds)|].
  split; [apply bytes_check; vm_compute; reflexivity|]. split; [reflexivity|]. split; [reflexivity|].
  assert (EO : out = match fst (fst (requester_next_request (snd forged_run) (repeat 7%N 32) big_buf)) with Ok x => x | _ => [] end).
  { rewrite <- ER, EN. reflexivity. }
  do 7 eexists. exists (sample_response 2), 9%N, (fun _ => repeat 0xEE%N 32), forged_chain. split; [|split].
  - rewrite EV. match goal with |- ?x ++ [Sent out] = _ => let y := eval vm_compute in x in change x with y end.
    cbn [app]. 
    do 7 (apply f_equal2; [try reflexivity|]).
    reflexivity.
  - reflexivity.
  - intros i _. vm_compute. discriminate.
Qed.
