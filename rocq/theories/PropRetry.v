(** C92: a failed next_request leaves no trace. *)
From Verif Require Import Base BaseLemmas Config Encoding MsgCommon MsgVersion MsgCapabilities MsgAlgorithms MsgDigest
     MsgCertificates MsgChallenge MsgError Transcript Crypto Responder Requester SpecWire SpecMsgs SpecResponder SpecRequester SpecCryptoUse
     PropTools PropTranscript ReqStep ReqMsg PropRequester PropReqState PropReqVerdict Sample SampleRun SampleReq.
#[local] Opaque chain_bytes.
#[local] Arguments Nat.leb : simpl never.

Section Retry.
Context {cfg : Config} {cr : Crypto}.

(** Only the record of the last message written can differ. *)
Definition noted (st st' : ReqStates) : Prop :=
  st' = st \/
  (exists s na, st = ReqAlgorithms s /\ config_to_negotiate_algorithms_msg = Ok na /\
     st' = ReqAlgorithms (mkReqAlg (qa_version s) (qa_requester_ct s) (qa_requester_cap s) (qa_responder_ct s) (qa_responder_cap s) (Some na) (qa_algorithms s))) \/
  (exists s nonce, st = ReqChallenge s /\
     st' = ReqChallenge (mkReqChal (qh_version s) (qh_requester_ct s) (qh_requester_cap s) (qh_responder_ct s) (qh_responder_cap s)
             (qh_algorithms s) (qh_cert_slot s) (qh_cert_chain s) (qh_cert_chain_size s) nonce)).

Ltac run_in H :=
  repeat first
  [ progress (cbn [rmap_err q_buf q_tr q_state] in H)
  | match type of H with context[match ?x with _ => _ end] => destruct x eqn:? end ].

Lemma extend_err bs t e t' : t_extend bs t = (Err e, t') -> t' = t /\ length (t_buf t) < t_offset t + length bs.
Proof. unfold t_extend. destruct (Nat.ltb_spec (length (t_buf t)) (t_offset t + length bs)); [|discriminate]. intros H0. inversion H0; subst. auto. Qed.
(** The tail common to all requests. *)
Lemma tail_err (fin : Q unit) n c e c' : (forall c, exists st, fin c = (Ok tt, mkQCtx (q_buf c) (q_tr c) st)) ->
  (o <- q_prefix n ;; q_extend o ;;; fin ;;; ret o) c = (Err e, c') -> c' = c /\ exists o : list N, length o = n /\ length (t_buf (q_tr c)) < t_offset (q_tr c) + length o.
Proof.
  intros HF. unfold bind at 1, q_prefix. destruct (Nat.leb_spec n (length (q_buf c))); [|discriminate].
  unfold bind at 1, q_extend, map_err. destruct (t_extend (firstn n (q_buf c)) (q_tr c)) as [[u|e0|p] t] eqn:E; cbn [rmap_err]; [|intros [= _ <-]|discriminate].
  - unfold bind at 1. destruct (HF (mkQCtx (q_buf c) t (q_state c))) as (st & ->). unfold ret. discriminate.
  - apply extend_err in E as [-> L]. split; [now destruct c|]. exists (firstn n (q_buf c)). split; [|exact L]. rewrite firstn_length. lia.
Qed.
Lemma tail_err' n c e c' : 
  (o <- q_prefix n ;; q_extend o ;;; ret o) c = (Err e, c') -> c' = c /\ exists o : list N, length o = n /\ length (t_buf (q_tr c)) < t_offset (q_tr c) + length o.
Proof.
  intros H. apply (tail_err (ret tt) n c e c'); [intros c0; exists (q_state c0); now destruct c0|]. rewrite <- H.
  unfold bind. destruct (q_prefix n c) as [[o|e0|p] c1]; [|reflexivity..]. destruct (q_extend o c1) as [[[]|e0|p] c2]; reflexivity.
Qed.
Lemma write_err {E} (from : E -> RequesterError) w c n e c' : q_write from w c = (n, c') -> n = Err e ->
  q_tr c' = q_tr c /\ q_state c' = q_state c.
Proof. unfold q_write. destruct (w (q_buf c)) as [r b]. intros [= _ <-] _. auto. Qed.

Lemma failed_write st fresh c e c' : q_state c = st -> t_wf (q_tr c) ->
  (st = ReqVersion -> t_offset (q_tr c) = 0 \/ 4 <= TRANSCRIPT_SIZE) ->
  write_req st fresh c = (Err e, c') -> q_tr c' = q_tr c /\ noted st (q_state c').
Proof.
  intros ES W HV H. destruct st as [| |s|s|s|s|]; try discriminate; cbn [write_req] in H.
  - unfold write_get_version in H. unfold bind at 1 in H. destruct (q_write _ _ c) as [[n|e0|p] c1] eqn:E1; [|injection H as -> <-|discriminate].
    2: { destruct (write_err _ _ _ _ _ _ E1 eq_refl) as [-> ->]. split; [auto|]. left. exact ES. }
    unfold q_write in E1. destruct (write_msg _ _ _ _) as [r b] eqn:EW. injection E1 as ER <-. cbn [rmap_err] in ER.
    unfold bind at 1 in H. unfold q_clear in H. cbn [q_buf q_tr q_state] in H.
    apply tail_err' in H as [-> (o & LO & LT)]. cbn [q_tr q_state] in *. split; [|left; auto].
    destruct (HV eq_refl) as [Z|Z]; [unfold t_clear; rewrite <- Z; now destruct (q_tr c)|exfalso].
    cbn [t_clear t_buf t_offset] in LT. destruct W as [W _]. rewrite W in LT.
    assert (r = Ok n). { destruct r; cbn [rmap_err] in ER; congruence. } subst r.
    destruct (PropVersionCaps.C07_get_version_write (q_buf c)) as [W1 W2].
    unfold PropVersionCaps.write_get_version in W1, W2. rewrite EW in W1, W2.
    destruct (Nat.le_gt_cases (length get_version_bytes) (length (q_buf c))) as [L|L].
    + specialize (W1 L). injection W1 as -> _. change (length get_version_bytes) with 4 in *. lia.
    + destruct (W2 L) as (e1 & k & _ & _ & W3). discriminate W3.
  - split; [|left; rewrite <- ES; eapply cap_error_state; exact H]. unfold cap_write_msg in H.
    unfold bind at 1 in H. destruct (lift config_to_get_capabilities_msg c) as [[m|e0|p] c1] eqn:E1;
      unfold lift in E1; injection E1 as E0 <-; [|injection H as _ <-; reflexivity|discriminate].
    unfold bind at 1 in H. destruct (q_write _ _ c) as [[n|e1|p1] c1] eqn:E1; [| |discriminate].
    2: { injection H as _ <-. now destruct (write_err _ _ _ _ _ _ E1 eq_refl). }
    assert (ET : q_tr c1 = q_tr c). { unfold q_write in E1. destruct (write_msg _ _ _ _). now injection E1 as _ <-. }
    apply (tail_err (q_set _)) in H as [-> _]; [exact ET|]. intros c2. eexists. reflexivity.
  - unfold alg_write_msg in H.
    unfold bind at 1 in H. destruct (lift config_to_negotiate_algorithms_msg c) as [[m|e0|p] c1] eqn:E1;
      unfold lift in E1; injection E1 as E0 <-; [|injection H as _ <-; split; [reflexivity|left; exact ES]|discriminate].
    unfold bind at 1 in H. destruct (q_write _ _ c) as [[n|e1|p1] c1] eqn:E1; [| |discriminate].
    2: { injection H as _ <-. destruct (write_err _ _ _ _ _ _ E1 eq_refl) as [-> ->]. split; [reflexivity|left; exact ES]. }
    assert (ET : q_tr c1 = q_tr c). { unfold q_write in E1. destruct (write_msg _ _ _ _). now injection E1 as _ <-. }
    unfold bind at 1 in H. unfold q_set at 1 in H. apply tail_err' in H as [-> _]. cbn [q_tr q_state]. split; [exact ET|].
    right. left. eauto.
  - assert (G : forall id w, (size <- q_write req_of_full (write_msg id (fun e => e) w) ;; o <- q_prefix size ;; q_extend o ;;; ret o) c = (Err e, c') ->
       q_tr c' = q_tr c /\ q_state c' = q_state c).
    { clear H. intros id w H. unfold bind at 1 in H. destruct (q_write _ _ c) as [[n|e1|p1] c1] eqn:E1; [| |discriminate].
      2: { injection H as _ <-. now destruct (write_err _ _ _ _ _ _ E1 eq_refl) as [-> ->]. }
      assert (ET : q_tr c1 = q_tr c /\ q_state c1 = q_state c). { unfold q_write in E1. destruct (write_msg _ _ _ _). now injection E1 as _ <-. }
      apply tail_err' in H as [-> _]. exact ET. }
    assert (q_tr c' = q_tr c /\ q_state c' = q_state c) as [-> ->].
    { destruct (qi_digests s); [unfold write_get_certificate_msg in H; destruct (negb _); [discriminate|]|unfold write_get_digests_msg in H]; eapply G; exact H. }
    split; [reflexivity|]. left. exact ES.
  - unfold chal_write_msg in H. unfold bind at 1 in H. unfold q_set at 1 in H.
    unfold bind at 1 in H. destruct (q_write _ _ _) as [[n|e1|p1] c1] eqn:E1; [| |discriminate].
    2: { injection H as _ <-. destruct (write_err _ _ _ _ _ _ E1 eq_refl) as [-> ->]. split; [reflexivity|]. right. right. cbn [q_state]. eauto. }
    assert (ET : q_tr c1 = q_tr c /\ exists nonce, q_state c1 = ReqChallenge (mkReqChal (qh_version s) (qh_requester_ct s) (qh_requester_cap s) (qh_responder_ct s) (qh_responder_cap s)
             (qh_algorithms s) (qh_cert_slot s) (qh_cert_chain s) (qh_cert_chain_size s) nonce)).
    { unfold q_write in E1. destruct (write_msg _ _ _ _). injection E1 as _ <-. cbn [q_tr q_state]. eauto. }
    apply tail_err' in H as [-> _]. destruct ET as [-> (nonce & ->)]. split; [reflexivity|]. right. right. eauto.
Qed.

(** The same request from either state. *)
Lemma noted_write st st' fresh b t : noted st st' ->
  let x := write_req st fresh (mkQCtx b t st) in let y := write_req st' fresh (mkQCtx b t st') in
  fst x = fst y /\ q_buf (snd x) = q_buf (snd y) /\ q_tr (snd x) = q_tr (snd y) /\ (forall out, fst x = Ok out -> q_state (snd x) = q_state (snd y)).
Proof.
  intros [-> |[(s & na & -> & EC & ->)|(s & nonce & -> & ->)]]; [auto| |]; cbn [write_req].
  - unfold alg_write_msg. rewrite EC. unfold bind, lift, q_set, q_write. cbn [q_buf q_tr q_state qa_version qa_requester_ct qa_requester_cap qa_responder_ct qa_responder_cap qa_algorithms].
    destruct (write_msg _ _ _ _) as [[n|e|p] b1]; cbn [rmap_err fst snd q_buf q_tr q_state]; auto; (split; [auto|split; [auto|split; [auto|discriminate]]]).
  - unfold chal_write_msg. unfold bind, lift, q_set, q_write. cbn [q_buf q_tr q_state qh_version qh_requester_ct qh_requester_cap qh_responder_ct qh_responder_cap qh_algorithms qh_cert_slot qh_cert_chain qh_cert_chain_size]. auto.
Qed.

(** [R'] is what is left of [R] after any number of failed calls. *)
Inductive failed : Requester -> Requester -> Prop :=
| failed_none R : failed R R
| failed_more R R1 R' fresh buf e buf' : failed R R1 -> fresh_ok fresh -> requester_next_request R1 fresh buf = (Err e, buf', R') -> failed R R'.
Definition twins (R R' : Requester) : Prop :=
  req_root R' = req_root R /\ req_transcript R' = req_transcript R /\
  match req_state R, req_state R' with Some st, Some st' => noted st st' | None, None => True | _, _ => False end.
Lemma noted_trans a b c : noted a b -> noted b c -> noted a c.
Proof.
  intros [-> |[(s & na & -> & EC & ->)|(s & nonce & -> & ->)]]; [auto| |]; intros [-> |[(s2 & na2 & E & EC2 & ->)|(s2 & nonce2 & E & ->)]]; try discriminate E.
  - right; left; eauto.
  - injection E as <-. right; left. eauto.
  - right; right; eauto.
  - injection E as <-. right; right. eauto.
Qed.
Lemma failing_twin root R fresh buf e buf' R' : req_setting -> req_reached root R ->
  requester_next_request R fresh buf = (Err e, buf', R') -> twins R R'.
Proof.
  intros HS HR H. assert (H0 := H). unfold requester_next_request in H. destruct (req_state R) as [st|] eqn:ES; [|discriminate].
  destruct (match st with ReqNewSession => true | _ => false end) eqn:E0.
  { destruct st; try discriminate. injection H as _ _ <-. unfold twins. rewrite ES. split; [auto|split; [auto|left; auto]]. }
  assert (N1 : st <> ReqError). { intros ->. discriminate. }
  assert (H' : (let '(r, c) := write_req st fresh (mkQCtx buf (req_transcript R) st) in (r, q_buf c, mkRequester (req_root R) (q_tr c) (Some (q_state c)))) = (Err e, buf', R')).
  { destruct st; try discriminate E0; exact H. }
  clear H. destruct (write_req st fresh _) as [r c] eqn:EW. injection H' as -> <- <-.
  destruct (C41_success_means_session root R HS HR) as (ev & SE); [eauto|].
  destruct (session_now root ev R HS SE) as (st1 & ER & ES1 & W & SO & NW & ss0 & LN & LA & LG). rewrite ES in ES1. injection ES1 as <-.
  apply failed_write in EW as [E1 E2]; [|reflexivity|exact W|].
  - unfold twins. rewrite ES. cbn [req_root req_transcript req_state]. auto.
  - intros ->. cbn [q_tr]. destruct NW as (n & ->). destruct W as [W1 W2]. pose proof (t_get_length (req_transcript R) (conj W1 W2)) as LT. unfold t_len in LT.
    destruct n as [|n]; [left; rewrite <- LT, LG; reflexivity|right]. rewrite <- asks_snoc, events_log_snoc in LG. cbn [event_log] in LG.
    change (code get_version_bytes =? 132)%N with true in LG. rewrite LG in LT. cbn in LT. lia.
Qed.
Lemma twins_next R R' fresh buf : twins R R' ->
  let x := requester_next_request R fresh buf in let y := requester_next_request R' fresh buf in
  fst x = fst y /\ (forall out, fst (fst x) = Ok out -> x = y).
Proof.
  intros (E1 & E2 & E3). unfold requester_next_request.
  destruct (req_state R) as [st|] eqn:ES, (req_state R') as [st'|] eqn:ES'; try contradiction; [|cbn; split; [auto|discriminate]].
  destruct (match st with ReqNewSession => true | _ => false end) eqn:E0.
  { destruct st; try discriminate. destruct E3 as [-> |[(? & ? & ? & _)|(? & ? & ? & _)]]; try discriminate. cbn. split; [auto|discriminate]. }
  assert (E0' : (match st' with ReqNewSession => true | _ => false end) = false).
  { destruct E3 as [-> |[(? & ? & -> & _ & ->)|(? & ? & -> & ->)]]; auto. }
  pose proof (noted_write st st' fresh buf (req_transcript R) E3) as N. cbv zeta in N. rewrite E1, E2.
  assert (G : forall R0 st0, (match st0 with ReqNewSession => true | _ => false end) = false ->
    match st0 with ReqNewSession => (Err ReqInitializationComplete, buf, R0) 
      | _ => let '(r, c) := write_req st0 fresh (mkQCtx buf (req_transcript R) st0) in (r, q_buf c, mkRequester (req_root R) (q_tr c) (Some (q_state c))) end
    = let '(r, c) := write_req st0 fresh (mkQCtx buf (req_transcript R) st0) in (r, q_buf c, mkRequester (req_root R) (q_tr c) (Some (q_state c)))).
  { intros R0 []; try reflexivity. discriminate. }
  rewrite (G R st E0), (G R' st' E0').
  destruct (write_req st _ _) as [r c], (write_req st' _ _) as [r' c']. cbn [fst snd] in N. destruct N as (-> & -> & -> & N). cbn [fst].
  split; [reflexivity|]. intros out ->. now rewrite (N out eq_refl).
Qed.
Lemma failed_twins root R R' : req_setting -> req_reached root R -> failed R R' -> req_reached root R' /\ twins R R'.
Proof.
  intros HS HR F. induction F as [R|R R1 R' fresh buf e buf' F IH FO H].
  - split; [exact HR|]. unfold twins. split; [auto|split; [auto|]]. destruct (req_state R); [left; auto|exact I].
  - destruct (IH HR) as [HR1 T]. split.
    + destruct HR1 as (calls & FC & ->). exists (calls ++ [CallNext fresh buf]). split; [apply Forall_app; split; [exact FC|repeat constructor; apply FO]|].
      unfold req_after. rewrite fold_left_app. cbn [fold_left req_after_call]. unfold req_after in H. now rewrite H.
    + pose proof (failing_twin root R1 fresh buf e buf' R' HS HR1 H) as T'. destruct T as (A1 & A2 & A3), T' as (B1 & B2 & B3).
      split; [congruence|split; [congruence|]]. destruct (req_state R), (req_state R1), (req_state R'); try contradiction; auto. eapply noted_trans; eauto.
Qed.

(** Any number of failed calls: the next call returns what it would have
    returned without them, bytes and buffer, and if it succeeds the requester is
    the same, too. *)
Theorem C92_retry root R R' fresh buf : req_setting -> req_reached root R -> failed R R' ->
  fst (requester_next_request R' fresh buf) = fst (requester_next_request R fresh buf) /\
  forall out, fst (fst (requester_next_request R fresh buf)) = Ok out ->
    requester_next_request R' fresh buf = requester_next_request R fresh buf.
Proof.
  intros HS HR F. destruct (failed_twins root R R' HS HR F) as [_ T]. destruct (twins_next R R' fresh buf T) as [A B].
  split; [congruence|]. intros out E. symmetry. eauto.
Qed.
(** Nor do they change the message log. *)
Theorem C92_log_kept root R R' : req_setting -> req_reached root R -> failed R R' ->
  t_get (req_transcript R') = t_get (req_transcript R) /\ req_root R' = req_root R.
Proof. intros HS HR F. destruct (failed_twins root R R' HS HR F) as [_ (A & -> & _)]. auto. Qed.

(** With a request outstanding, they change nothing at all that can be seen later. *)
Definition alike_twins (R R' : Requester) : Prop :=
  R' = R \/ (req_root R' = req_root R /\ req_transcript R' = req_transcript R /\ exists s nonce, req_state R = Some (ReqChallenge s) /\
    req_state R' = Some (ReqChallenge (mkReqChal (qh_version s) (qh_requester_ct s) (qh_requester_cap s) (qh_responder_ct s) (qh_responder_cap s)
             (qh_algorithms s) (qh_cert_slot s) (qh_cert_chain s) (qh_cert_chain_size s) nonce))).
Lemma alike_handle R R' rsp : alike_twins R R' -> requester_handle_msg R' rsp = requester_handle_msg R rsp.
Proof.
  intros [-> |(E1 & E2 & s & nonce & E3 & E4)]; [reflexivity|]. unfold requester_handle_msg. rewrite E3, E4, E1, E2. reflexivity.
Qed.
Lemma alike_next R R' fresh buf : alike_twins R R' ->
  fst (requester_next_request R' fresh buf) = fst (requester_next_request R fresh buf) /\
  alike_twins (snd (requester_next_request R fresh buf)) (snd (requester_next_request R' fresh buf)).
Proof.
  intros [-> |(E1 & E2 & s & nonce & E3 & E4)]; [split; [auto|left; auto]|]. unfold requester_next_request. rewrite E3, E4, E1, E2.
  cbn [write_req]. unfold chal_write_msg, bind, q_set. cbn [q_buf q_tr q_state qh_version qh_requester_ct qh_requester_cap qh_responder_ct qh_responder_cap qh_algorithms qh_cert_slot qh_cert_chain qh_cert_chain_size].
  match goal with |- context[let '(_, _) := ?x in _] => destruct x as [r c] end. split; [reflexivity|left; reflexivity].
Qed.
Lemma alike_observed calls : forall R R', alike_twins R R' -> req_observed R' calls = req_observed R calls.
Proof.
  induction calls as [|[fresh buf|rsp] calls IH]; intros R R' A; cbn [req_observed]; [reflexivity| |].
  - destruct (alike_next R R' fresh buf A) as [B C]. destruct (requester_next_request R fresh buf) as [[r b] R1], (requester_next_request R' fresh buf) as [[r' b'] R1'].
    cbn [fst snd] in B, C. injection B as -> ->. f_equal. now apply IH.
  - rewrite (alike_handle R R' rsp A). reflexivity.
Qed.
Lemma outstanding_alike root ev m R R' : req_setting -> req_session root (ev ++ [Sent m]) R -> twins R R' -> alike_twins R R'.
Proof.
  intros HS SE (A1 & A2 & A3). destruct (session_now root _ R HS SE) as (st & ER & ES & W & SO & NW & _). rewrite ES in A3.
  destruct (req_state R') as [st'|] eqn:ES'; [|contradiction]. destruct A3 as [-> |[(s & na & -> & EC & ->)|(s & nonce & -> & ->)]].
  - left. destruct R, R'. cbn in *. congruence.
  - left. cbn [req_now] in NW. destruct NW as (ev0 & n & na0 & TC & EV & ECT & EA & [[-> _]|[OO EN]]).
    + exfalso. cbn [asks repeat] in EV. rewrite app_nil_r in EV. subst ev0. inversion TC as [ev1 n1 m1 _ _ _ _ _ _ EE].
      rewrite app_assoc in EE. apply app_inj_tail in EE as [_ EE]. discriminate EE.
    + apply offer_named in EC. rewrite (own_offer_unique _ _ EC OO), <- EN in ES'. destruct s as [a b c d e f g]. cbn in ES'. destruct R, R'. cbn in *. congruence.
  - right. split; [auto|split; [auto|]]. eauto.
Qed.
Theorem C92_no_trace root ev m R R' calls : req_setting -> req_session root (ev ++ [Sent m]) R -> failed R R' ->
  req_observed R' calls = req_observed R calls.
Proof.
  intros HS SE F. pose proof (PropReqVerdict.session_reached _ _ _ SE) as HR. apply alike_observed. destruct (failed_twins root R R' HS HR F) as [_ T]. eapply outstanding_alike; eauto.
Qed.
Lemma sent_session root ev R fresh buf out : req_session root ev R -> fresh_ok fresh ->
  fst (fst (requester_next_request R fresh buf)) = Ok out -> req_session root (ev ++ [Sent out]) (snd (requester_next_request R fresh buf)).
Proof.
  intros H F E. destruct (requester_next_request R fresh buf) as [[r b] R'] eqn:EN. cbn in E. subst r. cbn [snd]. eapply req_session_sent; eauto.
Qed.
Lemma one_failed R fresh buf e : fresh_ok fresh -> fst (fst (requester_next_request R fresh buf)) = Err e ->
  failed R (snd (requester_next_request R fresh buf)).
Proof.
  intros F E. destruct (requester_next_request R fresh buf) as [[r b] R'] eqn:EN. cbn in E. subst r. cbn [snd]. eapply failed_more; [constructor|exact F|exact EN].
Qed.
End Retry.

(** * Witness: a CHALLENGE was sent; then the call is made again with a buffer
    of three bytes, and fails; the answer still authenticates. *)
#[local] Existing Instance sample_cfg.
#[local] Existing Instance sample_crypto.
Definition asked : Requester := snd (requester_next_request (driven_R 5) (repeat 7%N 32) big_buf).
#[local] Notation asked_again := (requester_next_request asked (repeat 8%N 32) [0; 0; 0]%N).
Definition the_ask : list N := Eval vm_compute in match fst (fst (requester_next_request (driven_R 5) (repeat 7%N 32) big_buf)) with Ok c => c | _ => [] end.
Lemma the_ask_is : fst (fst (requester_next_request (driven_R 5) (repeat 7%N 32) big_buf)) = Ok the_ask.
Proof. vm_compute. reflexivity. Qed.
Lemma asked_fails : fst (fst asked_again) = Err ReqBufferFull.
Proof. vm_compute. reflexivity. Qed.
Definition noted_nonce (R : Requester) : option (list N) := match req_state R with Some (ReqChallenge s) => qh_nonce s | _ => None end.
Lemma asked_differs : noted_nonce asked = Some (repeat 7%N 32) /\ noted_nonce (snd asked_again) = Some (repeat 8%N 32).
Proof. split; vm_compute; reflexivity. Qed.
Lemma asked_answered : req_observed asked [CallMsg (sample_response 5)] = [inr (Ok true)].
Proof. vm_compute. reflexivity. Qed.
Lemma fresh_repeat k : (k < 256)%N -> fresh_ok (repeat k 32).
Proof. intros L. split; [apply repeat_length|]. apply bytes_repeat. exact L. Qed.
Lemma differ_by {A} (x y a b : A) : x = a -> y = b -> a <> b -> x <> y.
Proof. congruence. Qed.
Lemma five_six : 5 <= 6.
Proof. lia. Qed.
Lemma seven_ok : (7 < 256)%N.
Proof. reflexivity. Qed.
Lemma eight_ok : (8 < 256)%N.
Proof. reflexivity. Qed.
Lemma asked_session : req_session [1; 2; 3]%N (driven_ev 5 ++ [Sent the_ask]) asked.
Proof. unfold asked. exact (sent_session [1; 2; 3]%N (driven_ev 5) (driven_R 5) (repeat 7%N 32) big_buf the_ask (driven_session 5 five_six) (fresh_repeat 7 seven_ok) the_ask_is). Qed.
Lemma asked_failed : failed asked (snd asked_again).
Proof. exact (one_failed asked (repeat 8%N 32) [0; 0; 0]%N ReqBufferFull (fresh_repeat 8 eight_ok) asked_fails). Qed.
Lemma other_nonce : Some (repeat 7%N 32) <> Some (repeat 8%N 32).
Proof. discriminate. Qed.
Lemma nonces_differ : noted_nonce asked <> noted_nonce (snd asked_again).
Proof. exact (differ_by _ _ _ _ (proj1 asked_differs) (proj2 asked_differs) other_nonce). Qed.
Example C92_example :
  req_setting /\ req_session [1; 2; 3]%N (driven_ev 5 ++ [Sent the_ask]) asked /\
  fst (fst asked_again) = Err ReqBufferFull /\ failed asked (snd asked_again) /\
  noted_nonce asked <> noted_nonce (snd asked_again) /\ req_observed asked [CallMsg (sample_response 5)] = [inr (Ok true)].
Proof.
  exact (conj sample_req_setting (conj asked_session (conj asked_fails (conj asked_failed (conj nonces_differ asked_answered))))).
Qed.
Print Assumptions C92_retry.
Print Assumptions C92_log_kept.
Print Assumptions C92_no_trace.
