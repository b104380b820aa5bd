(** The requester over arbitrary histories: what every session looks like. *)
From Verif Require Import Base BaseLemmas Config Encoding MsgCommon MsgVersion MsgCapabilities MsgAlgorithms MsgDigest
     MsgCertificates MsgChallenge MsgError Transcript Crypto Responder Requester SpecWire SpecMsgs SpecResponder SpecRequester
     FlagLemmas PropTools PropTranscript PropVersionCaps PropAlg PropCerts PropChal PropGeneric PropTables PropDer RspParts RspStep ReqStep ReqMsg.

#[local] Opaque chain_bytes.
#[local] Arguments Nat.leb : simpl never.
Section PropRequester.
Context {cfg : Config} {cr : Crypto}.

(** * Calls *)
Lemma handle_sound R rsp b R' st : bytes rsp -> req_setting -> req_state R = Some st -> st_ok st -> t_wf (req_transcript R) ->
  requester_handle_msg R rsp = (Ok b, R') ->
  exists st', req_state R' = Some st' /\ (b = true <-> st' = ReqNewSession) /\ req_root R' = req_root R /\
    t_wf (req_transcript R') /\
    accepted (req_root R) rsp st (t_get (req_transcript R)) st' (t_get (req_transcript R')).
Proof.
  intros HB HS ES SO W H. unfold requester_handle_msg in H. rewrite ES in H.
  destruct (req_dispatch st (req_root R) rsp (req_transcript R)) as [[st'|e|p] t'] eqn:ED; try discriminate.
  injection H as <- <-. exists st'. cbn [req_state req_root req_transcript].
  destruct (req_dispatch_sound (req_root R) rsp HB HS st st' _ _ SO W ED) as [W' A].
  repeat (split; auto); destruct st'; auto; try discriminate.
Qed.
Lemma handle_complete R rsp st st' log' : bytes rsp -> req_setting -> req_state R = Some st -> st_ok st -> t_wf (req_transcript R) ->
  accepted (req_root R) rsp st (t_get (req_transcript R)) st' log' -> length log' <= TRANSCRIPT_SIZE ->
  exists R', requester_handle_msg R rsp = (Ok (match st' with ReqNewSession => true | _ => false end), R') /\
    req_state R' = Some st' /\ req_root R' = req_root R /\ t_wf (req_transcript R') /\ t_get (req_transcript R') = log'.
Proof.
  intros HB HS ES SO W A L. destruct (req_dispatch_complete (req_root R) rsp HB HS st st' _ log' SO W A L) as (t' & E1 & W' & G).
  unfold requester_handle_msg. rewrite ES, E1. eexists. split; [reflexivity|]. auto.
Qed.

(** * Sessions *)
Lemma events_log_snoc ss ev e : events_log ss (ev ++ [e]) = event_log ss (events_log ss ev) e.
Proof. unfold events_log. now rewrite fold_left_app. Qed.
Lemma asks_snoc n m : asks n m ++ [Sent m] = asks (S n) m.
Proof. unfold asks. symmetry. apply repeat_cons. Qed.
Lemma challenges_snoc slot nonces n : challenges slot nonces ++ [Sent (challenge_msg slot n)] = challenges slot (nonces ++ [n]).
Proof. unfold challenges. now rewrite map_app. Qed.

(** The invariant. *)
Definition now (root : list N) (ev : list event) (R : Requester) (st : ReqStates) : Prop :=
  req_root R = root /\ req_state R = Some st /\ t_wf (req_transcript R) /\ st_ok st /\ req_now root ev st /\
  exists ss, (st <> ReqNewSession -> forall ss', events_log ss' ev = events_log ss ev) /\
    ((forall ss', events_log ss' ev = events_log ss ev) \/
     exists v own ct flags al ev0 ev1, ev = ev0 ++ ev1 /\ told_algorithms v own ct flags al ev0 /\ sig_len (al_base_asym al) = Some ss) /\
    t_get (req_transcript R) = events_log ss ev.

Lemma told_certificate_algorithms v own ct fl al d slot portion ev : told_certificate v own ct fl al d slot portion ev ->
  exists ev0 ev1, ev = ev0 ++ ev1 /\ told_algorithms v own ct fl al ev0.
Proof. intros [ev1 n m r [ev2 n2 m2 H _ _ _] _ _ _]. exists ev2. rewrite <- !app_assoc. eauto. Qed.

Lemma own_structs_all na es unused : own_offer na -> na_num_requests na = N.of_nat (length es) -> na_requests na = es ++ unused -> es = own_structs.
Proof.
  intros (_ & _ & _ & _ & E1 & E2) E3 E4. rewrite E1 in E3. rewrite E2 in E4. assert (L : length es = 4) by lia.
  assert (X : firstn 4 own_structs = firstn 4 (es ++ unused)) by now rewrite E4. rewrite firstn_app_exact in X by auto. now rewrite <- X.
Qed.

Lemma now_sent root ev R st fresh buf out buf' R' : now root ev R st -> fresh_ok fresh ->
  requester_next_request R fresh buf = (Ok out, buf', R') -> exists st', now root (ev ++ [Sent out]) R' st' /\ st' <> ReqNewSession.
Proof.
  intros (ER & ES & W & SO & NW & ss & LN & _ & LG) FR H.
  destruct (next_sound R fresh buf out buf' R' W H) as (st0 & st' & log' & ES0 & HR & _ & _ & _ & ER' & ES' & LG' & W').
  rewrite ES in ES0. injection ES0 as <-. exists st'.
  assert (N1 : st <> ReqNewSession) by (destruct HR; discriminate).
  specialize (LN N1).
  assert (X : st' <> ReqNewSession /\ st_ok st' /\ req_now root (ev ++ [Sent out]) st' /\
     forall ss', log' = event_log ss' (events_log ss' ev) (Sent out)).
  { rewrite LG in HR. remember (events_log ss ev) as log eqn:EL.
    destruct HR as [log|s log own out H1 H2 ->|s log na out H1 ->|s log out H1 ->|s log out H1 H2 ->|s log out ->]; cbn [req_now] in NW;
      (split; [discriminate|]); cbn [event_log st_ok] in *.
    - split; [exact I|]. destruct NW as (n & ->). cbn [req_now]. split; [|reflexivity]. exists (S n). apply asks_snoc.
    - split; [exact I|]. destruct NW as (ev0 & n & own0 & T & -> & R1 & R2 & R3). split; [|intros; now rewrite LN].
      cbn [req_now qc_version qc_responder_ct qc_responder_cap qc_requester_ct qc_requester_cap].
      exists ev0, (S n), own. split; [exact T|]. split; [|split; [auto|split; [auto|right; split; [lia|auto]]]].
      rewrite <- app_assoc, <- asks_snoc. do 2 f_equal. destruct R3 as [(-> & _)|(_ & F & _)]; [reflexivity|].
      now rewrite (flags_unique _ _ _ _ H2 F).
    - destruct NW as (ev0 & n & na0 & T & -> & R1 & R2 & R3). split; [|split].
      + cbn [qa_negotiate]. intros na1 [= <-]. exists own_structs, []. destruct H1 as (_ & _ & _ & _ & -> & ->). split; reflexivity.
      + cbn [req_now qa_version qa_requester_cap qa_responder_ct qa_responder_cap qa_requester_ct qa_algorithms qa_negotiate].
        exists ev0, (S n), na. split; [exact T|]. split; [|auto]. rewrite <- app_assoc, <- asks_snoc. do 2 f_equal.
        destruct R3 as [(-> & _)|(F & _)]; [reflexivity|]. now rewrite (own_offer_unique _ _ H1 F).
      + intros; now rewrite LN.
    - split; [exact I|]. cbn [req_now]. rewrite H1 in NW |- *. destruct NW as ((ev0 & n & T & ->) & NW). split; [|intros; now rewrite LN].
      split; [|exact NW]. exists ev0, (S n). rewrite <- app_assoc, asks_snoc. auto.
    - split; [exact I|]. cbn [req_now]. destruct (qi_digests s) as [d|] eqn:ED; [|congruence].
      destruct NW as ((ev0 & n & T & ->) & NW). split; [|intros; now rewrite LN].
      split; [|exact NW]. exists ev0, (S n). rewrite <- app_assoc, asks_snoc. auto.
    - split; [exact SO|]. destruct NW as (ev0 & nonces & d & T & -> & F & NW). split; [|intros; now rewrite LN].
      cbn [req_now qh_version qh_requester_cap qh_responder_ct qh_responder_cap qh_algorithms qh_cert_slot qh_cert_chain_size qh_cert_chain qh_requester_ct].
      exists ev0, (nonces ++ [wire_nonce fresh]), d. rewrite <- app_assoc, challenges_snoc. split; [exact T|]. split; [reflexivity|].
      split; [|exact NW]. apply Forall_app. split; [exact F|]. constructor; [|constructor]. destruct FR as [FR _].
      unfold nonce_ok, wire_nonce. destruct feature_rand; [exact FR|reflexivity]. }
  destruct X as (X1 & X2 & X3 & X4). split; [|exact X1]. split; [congruence|]. split; [auto|]. split; [auto|]. split; [auto|]. split; [auto|].
  exists ss. assert (Y : forall ss', events_log ss' (ev ++ [Sent out]) = events_log ss (ev ++ [Sent out])).
  { intros. rewrite !events_log_snoc, <- !X4. reflexivity. }
  split; [auto|]. split; [auto|]. rewrite events_log_snoc, <- X4. exact LG'.
Qed.

Lemma now_failed root ev R st fresh buf e buf' R' : now root ev R st ->
  requester_next_request R fresh buf = (Err e, buf', R') -> exists st', now root ev R' st' /\ (st' = ReqNewSession <-> st = ReqNewSession).
Proof.
  intros (ER & ES & W & SO & NW & ss & LN & LA & LG) H.
  destruct (next_error R fresh buf e buf' R' W H) as (st0 & ES0 & W' & ER' & HC).
  rewrite ES in ES0. injection ES0 as <-.
  destruct HC as [(E1 & _ & _ & E2)|[(E1 & _ & _ & E2 & E3)|(_ & _ & out & st' & log' & HR & _ & E1 & E2)]].
  - subst R'. exists st. split; [|tauto]. split; [auto|]. split; [auto|]. split; [auto|]. split; [auto|]. split; [auto|]. exists ss. auto.
  - exists st. split; [|tauto]. split; [congruence|]. split; [auto|]. split; [auto|]. split; [auto|]. split; [auto|].
    exists ss. rewrite E2. auto.
  - assert (N1 : st <> ReqNewSession /\ st' <> ReqNewSession) by (destruct HR; split; discriminate).
    assert (LG' : t_get (req_transcript R') = events_log ss ev).
    { destruct E2 as [->|(-> & SZ & ->)]; [auto|].
      assert (LZ : length (t_get (req_transcript R)) < 4). { rewrite t_get_length by auto. destruct W as [_ W2]. unfold t_len. lia. }
      rewrite LG in LZ. cbn [req_now] in NW. destruct NW as (n & ->). destruct n as [|n]; [reflexivity|].
      rewrite <- asks_snoc, events_log_snoc in LZ. simpl in LZ. lia. }
    destruct E1 as [E1|[E1 NC]].
    + exists st. split; [|tauto]. split; [congruence|]. split; [auto|]. split; [auto|]. split; [auto|]. split; [auto|].
      exists ss. auto.
    + exists st'. split; [|tauto]. split; [congruence|]. split; [auto|]. split; [auto|].
      assert (X : st_ok st' /\ req_now root ev st').
      { destruct HR as [log|s log own out H1 H2 ->|s log na out H1 ->|s log out H1 ->|s log out H1 H2 ->|s log out ->]; auto.
        - exfalso. apply (NC s). reflexivity.
        - cbn [req_now] in NW. destruct NW as (ev0 & n & na0 & T & -> & R1 & R2 & R3). split.
          + intros na1 [= <-]. exists own_structs, []. destruct H1 as (_ & _ & _ & _ & -> & ->). split; reflexivity.
          + exists ev0, n, na. split; [exact T|]. split; [|auto]. destruct R3 as [(-> & _)|(F & _)]; [reflexivity|].
            now rewrite (own_offer_unique _ _ H1 F). }
      destruct X as [X1 X2]. split; [auto|]. split; [auto|]. exists ss. split; [intros; apply LN; tauto|]. auto.
Qed.

Lemma starts_code a b p m : starts_with ([a; b] ++ p) m -> code m = b.
Proof. intros (r & ->). reflexivity. Qed.

Lemma now_got root ev R st rsp b R' : req_setting -> now root ev R st -> bytes rsp ->
  requester_handle_msg R rsp = (Ok b, R') -> exists st', now root (ev ++ [Got rsp]) R' st' /\ (b = true <-> st' = ReqNewSession) /\
    accepted root rsp st (t_get (req_transcript R)) st' (t_get (req_transcript R')).
Proof.
  intros HS (ER & ES & W & SO & NW & ss & LN & _ & LG) HB H.
  destruct (handle_sound R rsp b R' st HB HS ES SO W H) as (st' & ES' & BT & ER' & W' & HA). exists st'.
  rewrite ER in HA. split; [|auto].
  assert (N1 : st <> ReqNewSession) by (inversion HA; subst; discriminate).
  specialize (LN N1).
  assert (P : forall c p, starts_with ([0x11; c]%N ++ p) rsp -> c <> 3%N -> forall ss', 
             event_log ss' (events_log ss' ev) (Got rsp) = events_log ss ev ++ rsp).
  { intros c p SW NE ss'. cbn [event_log]. rewrite (starts_code _ _ _ _ SW), LN. apply N.eqb_neq in NE. now rewrite NE. }
  assert (X : st_ok st' /\ exists ss0, 
     ((forall ss', event_log ss' (events_log ss' ev) (Got rsp) = t_get (req_transcript R')) \/
      st' = ReqNewSession /\ t_get (req_transcript R') = event_log ss0 (events_log ss0 ev) (Got rsp) /\
      exists v own ct flags al ev0 ev1, ev ++ [Got rsp] = ev0 ++ ev1 /\ told_algorithms v own ct flags al ev0 /\ sig_len (al_base_asym al) = Some ss0) /\
     req_now root (ev ++ [Got rsp]) st').
  { rewrite LG in HA. clear LG. remember (t_get (req_transcript R')) as log' eqn:El. clear El. remember (events_log ss ev) as log eqn:EL.
    destruct HA as [log es v SW F LE HC|s log oct own ct fl Q1 Q2 SW FB
    |s log na es al fs body st' EN N3 (unused & N2) SW FM N4 A3 SE ->
    |s log d ED KH DL L SW DO|s log c portion st' ED SW CH ->
    |s log m rsvd olen sl portion chain log' U HS1 HS2 IA SW RV OL FO ESL TB OC EP LP LP2 EQ CT EL' SV]; cbn [req_now] in NW.
    - destruct NW as (n & ->). split; [exact I|]. exists 0. split.
      + left. intros ss'. cbn [event_log]. rewrite (starts_code _ _ _ _ SW), LN. reflexivity.
      + cbn [req_now qc_version qc_responder_ct qc_responder_cap qc_requester_ct qc_requester_cap].
        exists (asks n get_version_bytes ++ [Got rsp]), 0, 0%N. split; [econstructor; eauto|]. rewrite app_nil_r. auto 10.
    - destruct NW as (ev0 & n & own0 & T & -> & R1 & R2 & R3).
      destruct R3 as [(_ & R3 & _)|(R0 & R3 & R4 & R5)]; [congruence|]. split; [discriminate|]. exists 0. split.
      + left. apply (P _ _ SW). discriminate.
      + cbn [req_now qa_version qa_requester_cap qa_responder_ct qa_responder_cap qa_requester_ct qa_algorithms qa_negotiate].
        exists ((ev0 ++ asks n (capabilities_msg own0)) ++ [Got rsp]), 0, (mkNA 0 0 0 0 []).
        assert (own = own0) as -> by congruence. assert (oct = 12%N) as -> by congruence.
        split; [|rewrite app_nil_r; auto 10]. rewrite <- app_assoc. econstructor; eauto.
    - destruct NW as (ev0 & n & na0 & T & -> & R1 & R2 & R3).
      destruct R3 as [(_ & R3)|(R0 & R3)]; [congruence|]. assert (na = na0) as -> by congruence.
      rewrite (own_structs_all _ _ _ R0 N3 N2) in SE.
      assert (TA : told_algorithms (qa_version s) (qa_requester_cap s) (qa_responder_ct s) (qa_responder_cap s) al
                 ((ev0 ++ asks n (offer_msg na0)) ++ [Got rsp])).
      { rewrite <- app_assoc. econstructor; eauto. }
      destruct (both cert_bit (qa_requester_cap s) (qa_responder_cap s)) eqn:BC.
      + split; [exact I|]. exists 0. split; [left; apply (P _ _ SW); discriminate|].
        cbn [req_now qi_digests qi_version qi_requester_cap qi_responder_ct qi_responder_cap qi_algorithms qi_requester_ct qi_cert].
        split; [|auto]. do 2 eexists. split; [exact TA|]. instantiate (1 := 0). now rewrite app_nil_r.
      + split; [exact I|]. exists 0. split; [left; apply (P _ _ SW); discriminate|]. cbn [req_now]. do 5 eexists. left. eauto.
    - rewrite ED in NW. destruct NW as ((ev0 & n & T & ->) & R1 & R2 & BC). split; [exact I|]. exists 0.
      split; [left; apply (P _ _ SW); discriminate|].
      cbn [req_now qi_digests qi_version qi_requester_cap qi_responder_ct qi_responder_cap qi_algorithms qi_requester_ct qi_cert].
      split; [|auto]. exists ((ev0 ++ asks n get_digests_msg) ++ [Got rsp]), 0. split; [|now rewrite app_nil_r].
      rewrite <- app_assoc. econstructor; eauto.
    - destruct (qi_digests s) as [d|] eqn:ED'; [|congruence]. destruct NW as ((ev0 & n & T & ->) & R1 & R2 & BC).
      pose proof CH as (C1 & C2 & C3 & C4 & C5).
      assert (TC : told_certificate (qi_version s) (qi_requester_cap s) (qi_responder_ct s) (qi_responder_cap s) (qi_algorithms s) d
                 (cert_slot c) portion ((ev0 ++ asks n get_certificate_msg) ++ [Got rsp])).
      { rewrite <- app_assoc. econstructor; eauto. }
      destruct (both chal_bit (qi_requester_cap s) (qi_responder_cap s)) eqn:BH.
      + split.
        { cbn [st_ok qh_cert_chain qh_cert_chain_size]. rewrite C5, Nat2N.id, app_length. split; [|split; [lia|exact C2]].
          apply bytes_app. split; [|apply bytes_repeat; reflexivity]. destruct SW as (r & ER0). rewrite ER0 in HB.
          unfold certificate_layout in HB. rewrite !bytes_app in HB. tauto. }
        exists 0. split; [left; apply (P _ _ SW); discriminate|].
        cbn [req_now qh_version qh_requester_cap qh_responder_ct qh_responder_cap qh_algorithms qh_cert_slot qh_cert_chain_size qh_cert_chain qh_requester_ct].
        exists ((ev0 ++ asks n get_certificate_msg) ++ [Got rsp]), [], d. rewrite C5, Nat2N.id, firstn_app_exact by reflexivity.
        split; [exact TC|]. split; [now rewrite app_nil_r|]. auto.
      + split; [exact I|]. exists 0. split; [left; apply (P _ _ SW); discriminate|]. cbn [req_now]. do 5 eexists. right. left. eauto.
    - destruct NW as (ev0 & nonces & d & T & -> & F & R1 & BH). split; [exact I|]. exists sl.
      assert (EV : log' = events_log sl ((ev0 ++ challenges (qh_cert_slot s) nonces) ++ [Got rsp])).
      { rewrite events_log_snoc. cbn [event_log]. rewrite (starts_code _ _ _ _ SW), LN. exact EL'. }
      destruct (told_certificate_algorithms _ _ _ _ _ _ _ _ _ T) as (e0 & e1 & -> & TA).
      split.
      + right. split; [reflexivity|]. split; [rewrite <- events_log_snoc; exact EV|]. do 7 eexists. split; [|split; [exact TA|exact HS1]].
        rewrite <- !app_assoc. reflexivity.
      + cbn [req_now]. do 5 eexists. right. right. rewrite <- EP in T. rewrite <- app_assoc in *. do 7 eexists. split; [exact BH|]. split; [exact T|].
        split; [exact F|]. split; [reflexivity|]. split; [exact HS1|]. rewrite <- EV.
        exists m, rsvd, olen, chain. rewrite <- ESL. auto 10. }
  destruct X as (X1 & ss0 & X2 & X3). split; [congruence|]. split; [auto|]. split; [auto|]. split; [auto|]. split; [auto|].
  exists ss0. destruct X2 as [X2|(X4 & X2 & X5)].
  - assert (Y : forall ss', events_log ss' (ev ++ [Got rsp]) = events_log ss0 (ev ++ [Got rsp])) by (intros; rewrite !events_log_snoc, !X2; reflexivity).
    split; [auto|]. split; [auto|]. now rewrite events_log_snoc, X2.
  - split; [tauto|]. split; [auto|]. rewrite events_log_snoc. exact X2.
Qed.

Lemma now_new root : now root [] (requester_new root) ReqVersion.
Proof.
  split; [auto|]. split; [auto|]. split; [apply t_new_wf|]. split; [exact I|]. split; [exists 0; reflexivity|]. exists 0. auto.
Qed.
Lemma session_now root ev R : req_setting -> req_session root ev R -> exists st, now root ev R st.
Proof.
  intros HS H. induction H as [|ev R fresh buf out buf' R' H IH FR E|ev R fresh buf e buf' R' H IH FR E|ev R rsp b R' H IH HB E].
  - exists ReqVersion. apply now_new.
  - destruct IH as (st & IH). destruct (now_sent _ _ _ _ _ _ _ _ _ IH FR E) as (st' & N & _). eauto.
  - destruct IH as (st & IH). destruct (now_failed _ _ _ _ _ _ _ _ _ IH E) as (st' & N & _). eauto.
  - destruct IH as (st & IH). destruct (now_got _ _ _ _ _ _ _ HS IH HB E) as (st' & N & _). eauto.
Qed.
End PropRequester.
