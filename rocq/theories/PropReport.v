(** C81: the state an endpoint shows is what the messages of its session say, and
    what has been negotiated never changes within a session. *)
From Verif Require Import Base BaseLemmas Config Encoding MsgCommon MsgVersion MsgCapabilities MsgAlgorithms MsgDigest MsgCertificates
     MsgChallenge MsgError Transcript Crypto Responder Requester SpecWire SpecMsgs SpecResponder SpecRequester SpecReport PropTools
     PropTranscript RspParts RspStep PropResponder ReqMsg ReqStep PropRequester PropRspState PropReqState PropReqVerdict
     Sample SampleRun SampleReq.
#[local] Opaque chain_bytes.
Section PropReport.
Context {cfg : Config} {cr : Crypto}.

(** * Responder *)
Lemma now_step slots rnd req st log out st' log' ex : served slots rnd req st log out st' log' -> rsp_now slots ex st ->
  rsp_now slots (ex ++ [(req, out)]) st'.
Proof.
  intros S N. destruct S as [st log NE SW | s log ct flags own out SW OB NM FN EO
    | s log body na al es fs out SW NF AC EO | s log mask out SW L MS CF EO
    | s log slot off len out SW L1 L2 L3 CF EO | s log slot t nonce mask filled ss sg out SW NO NTH CF HU SL LE MS EO SG LS];
  cbn [rsp_now ra_responder_ct ra_algorithms ra_requester_ct ra_requester_cap ra_responder_cap
    ri_responder_ct ri_requester_ct ri_requester_cap ri_responder_cap ri_algorithms] in *.
  - split; [auto|]. exists ex, (req, version_reply). split; [auto|]. exact (conj SW eq_refl).
  - destruct N as (_ & before & v & -> & V). split; [reflexivity|]. split; [reflexivity|]. exists before, v, (req, out). rewrite <- app_assoc.
    exact (conj eq_refl (conj V (conj SW (conj OB (conj FN EO))))).
  - destruct N as (C1 & C2 & before & v & c & -> & V & C). split; [exact C1|]. exists before, v, c, (req, out), [].
    rewrite <- app_assoc. refine (conj eq_refl (conj V (conj C (conj _ (Forall_nil _))))). exists body, na, es, fs.
    exact (conj SW (conj NF (conj AC EO))).
  - destruct N as (C1 & before & v & c & a & ds & -> & V & C & A & D). split; [exact C1|]. exists before, v, c, a, (ds ++ [(req, out)]).
    rewrite <- !app_assoc. refine (conj eq_refl (conj V (conj C (conj A _)))). apply Forall_app. split; [exact D|]. constructor; [|constructor].
    exists mask. exact (conj SW (conj MS EO)).
  - destruct N as (C1 & before & v & c & a & ds & -> & V & C & A & D). split; [exact C1|]. exists before, v, c, a, ds, (req, out), [].
    rewrite <- !app_assoc. refine (conj eq_refl (conj V (conj C (conj A (conj D (conj _ (Forall_nil _))))))). exists slot, off, len.
    exact (conj SW (conj L3 EO)).
  - destruct N as (C1 & before & v & c & a & ds & t0 & hs & -> & V & C & A & D & T & HS). split; [exact C1|].
    exists before, v, c, a, ds, t0, (hs ++ [(req, out ++ sg)]).
    rewrite <- !app_assoc. refine (conj eq_refl (conj V (conj C (conj A (conj D (conj T _)))))). apply Forall_app. split; [exact HS|].
    constructor; [|constructor]. exists slot, t, nonce, mask, (wire_nonce (rnd_nonce rnd)), sg. cbn [fst snd]. rewrite <- EO, LS.
    exact (conj SW (conj MS (conj eq_refl SL))).
Qed.
Theorem C81_responder_shows slots ex R : setting slots -> session slots ex R ->
  exists st, rsp_state R = Some st /\ rsp_now slots ex st.
Proof.
  intros HS H. induction H as [|R HR|ex R rnd req rsp out rsp' R' H IH HB RK HH].
  - exists RspVersion. split; reflexivity.
  - exists RspVersion. split; reflexivity.
  - destruct (step_sound slots R rnd req rsp out rsp' R' HS (PropResponder.session_reached _ _ _ H) HB RK HH)
      as (st & st' & log' & E1 & E2 & _ & SV & _).
    destruct IH as (st0 & E0 & N). rewrite E1 in E0. injection E0 as <-. exists st'. split; [exact E2|]. eapply now_step; eauto.
Qed.

Lemma still_refl {A} (a : option A) : still a a. Proof. intros x H. exact H. Qed.
Lemma still_none {A} (b : option A) : still None b. Proof. discriminate. Qed.
Lemma still_trans {A} (a b c : option A) : still a b -> still b c -> still a c. Proof. intros H1 H2 x E. auto. Qed.
Lemma served_keeps slots rnd req st log out st' log' : served slots rnd req st log out st' log' -> code req <> 0x84%N -> rsp_kept st st'.
Proof.
  intros S NC. destruct S as [st log NE (r & ->) | | | | |]; [exfalso; apply NC; reflexivity|..]; split;
    cbn [rsp_shown_caps rsp_shown_algorithms ri_requester_ct ri_requester_cap ri_responder_ct ri_responder_cap];
    try apply still_refl; apply still_none.
Qed.
Theorem C81_responder_keeps slots R calls st : setting slots -> reached slots R -> rsp_state R = Some st ->
  Forall call_ok calls -> Forall no_restart_call calls ->
  match rsp_state (after R calls) with None | Some RspError => True | Some st' => rsp_kept st st' end.
Proof.
  intros HS. revert R st. induction calls as [|c calls IH]; intros R st HR ES FO FN.
  - cbn. rewrite ES. destruct st; auto; split; apply still_refl.
  - inversion FO as [|? ? O1 O2]; subst. inversion FN as [|? ? N1 N2]; subst. cbn [after fold_left]. fold (after (after_call R c) calls).
    pose proof (reached_step slots R c HR O1) as HR1. destruct c as [rnd req rsp|]; [|destruct N1]. cbn [after_call] in *. destruct O1 as [HB RK].
    assert (Dead : forall calls R1, rsp_state R1 = None \/ rsp_state R1 = Some RspError -> Forall no_restart_call calls ->
      rsp_state (after R1 calls) = None \/ rsp_state (after R1 calls) = Some RspError).
    { clear. induction calls as [|c l IH]; intros R1 H F; [exact H|]. inversion F as [|? ? F1 F2]; subst. cbn [after fold_left]. fold (after (after_call R1 c) l).
      apply IH; [|exact F2]. destruct c as [rnd req rsp|]; [|destruct F1]. cbn [after_call]. unfold responder_handle_msg.
      destruct H as [H | H]; rewrite H; left; [exact H|reflexivity]. }
    destruct (responder_handle_msg R rnd req rsp) as [[rep rsp'] R1] eqn:EH.
    assert (Cases : (exists out, rep = Replied out (Ok tt)) \/ rsp_state R1 = None \/ rsp_state R1 = Some RspError).
    { unfold responder_handle_msg in EH. rewrite ES in EH. destruct (rsp_dispatch _ _ _ _ _) as [r0 c0]. unfold rsp_finish in EH.
      destruct r0 as [[size st1]|e|p].
      - destruct (size <=? length (c_rsp c0)); injection EH as <- _ <-; [left; eauto|auto].
      - destruct (write_msg _ _ _ _) as [[n|e1|p] b]; [destruct (n <=? length b)| |]; injection EH as <- _ <-; auto.
      - injection EH as <- _ <-. auto. }
    destruct Cases as [(out & ->)|D].
    + destruct (step_sound slots R rnd req rsp out rsp' R1 HS HR HB RK EH) as (st0 & st1 & log' & E1 & E2 & _ & SV & _).
      rewrite ES in E1. injection E1 as <-. destruct (served_keeps _ _ _ _ _ _ _ _ SV N1) as [K1 K2].
      specialize (IH R1 st1 HR1 E2 O2 N2). destruct (rsp_state (after R1 calls)) as [st2|]; [|exact I].
      destruct st2; try exact I; destruct IH as [J1 J2]; split; eapply still_trans; eauto.
    + destruct (Dead calls R1 D N2) as [-> | ->]; exact I.
Qed.

(** * Requester *)
Theorem C81_requester_shows root ev R : req_setting -> req_session root ev R ->
  exists st, req_state R = Some st /\ req_now root ev st.
Proof. intros HS H. destruct (session_now root ev R HS H) as (st & _ & ES & _ & _ & N & _). eauto. Qed.

Lemma same_kept st st' : same_state st st' -> req_kept st st'.
Proof.
  destruct st as [| |s|s|s|s|], st' as [| |t|t|t|t|]; cbn [same_state]; intros H; try (now destruct H); repeat split;
    try apply still_none; try (destruct H as (H1 & H2 & H3)); cbn [req_shown_version req_shown_caps req_shown_algorithms req_shown_certificate].
  all: try (rewrite H; apply still_refl).
  all: intuition (repeat match goal with E : _ = _ |- _ => rewrite E; clear E end; try apply still_refl).
Qed.
Lemma accepted_kept root rsp st log st' log' : accepted root rsp st log st' log' -> st' = ReqNewSession \/ req_kept st st'.
Proof.
  intros A. destruct A as [log es v SW F L HC | s log own_ct own ct flags E1 E2 SW OB | s log na es al fs body st' E1 E2 E3 SW AF E4 E5 SO E6
    | s log d E1 KH HL L SW DO | s log c portion st' E1 SW CH E2 | s log m rsvd olen ss portion chain log'].
  - right. repeat split; apply still_none.
  - right. repeat split; try apply still_none. apply still_refl.
  - subst st'. destruct (both _ _ _); [right|left; reflexivity].
    repeat split; try apply still_none; apply still_refl.
  - right. repeat split; try apply still_none; apply still_refl.
  - subst st'. destruct (both _ _ _); [right|left; reflexivity]. repeat split; try apply still_none; apply still_refl.
  - left. reflexivity.
Qed.
Lemma req_reached_step root R c : req_reached root R -> req_call_ok c -> req_reached root (req_after_call R c).
Proof.
  intros (l & F & ->) O. exists (l ++ [c]). split; [apply Forall_app; auto|]. unfold req_after. now rewrite fold_left_app.
Qed.
(** The session is over: finished, failed or panicked. *)
Definition is_over (st : option ReqStates) : Prop := st = None \/ st = Some ReqError \/ st = Some ReqNewSession.
Lemma over_or_not st : is_over st \/ exists s, st = Some s /\ s <> ReqError /\ s <> ReqNewSession.
Proof. unfold is_over. destruct st as [[]|]; auto; right; eexists; (split; [reflexivity|split; discriminate]). Qed.
Lemma over_stays calls : forall R, is_over (req_state R) -> is_over (req_state (req_after R calls)).
Proof.
  induction calls as [|c l IH]; intros R H; [exact H|]. cbn [req_after fold_left]. fold (req_after (req_after_call R c) l). apply IH.
  destruct H as [H|[H|H]].
  - destruct (dead_call R c (or_intror H)); unfold is_over; auto.
  - destruct (dead_call R c (or_introl H)); unfold is_over; auto.
  - destruct c as [fresh buf|rsp]; cbn [req_after_call].
    + destruct (requester_next_request R fresh buf) as [[r buf'] R'] eqn:EN.
      destruct (C41_next_keeps_state R fresh buf r buf' R' EN) as [_ M]. rewrite H in M. unfold is_over.
      destruct (req_state R') as [[]|]; auto; destruct M.
    + unfold requester_handle_msg. rewrite H. left. reflexivity.
Qed.
Theorem C81_requester_keeps root R calls st : req_setting -> req_reached root R -> req_state R = Some st -> Forall req_call_ok calls ->
  match req_state (req_after R calls) with None | Some ReqError | Some ReqNewSession => True | Some st' => req_kept st st' end.
Proof.
  intros HS. revert R st. induction calls as [|c calls IH]; intros R st HR ES FO.
  - cbn. rewrite ES. destruct st; auto; apply same_kept; apply same_state_refl.
  - inversion FO as [|? ? O1 O2]; subst. cbn [req_after fold_left]. fold (req_after (req_after_call R c) calls).
    pose proof (req_reached_step root R c HR O1) as HR1.
    destruct (over_or_not (req_state (req_after_call R c))) as [D|(st1 & E1 & N1 & N2)].
    + destruct (over_stays calls _ D) as [-> |[-> | ->]]; exact I.
    + assert (K : req_kept st st1).
      { destruct c as [fresh buf|rsp]; cbn [req_after_call] in *.
        - destruct (requester_next_request R fresh buf) as [[r buf'] R'] eqn:EN.
          destruct (C41_next_keeps_state R fresh buf r buf' R' EN) as [_ M]. rewrite ES, E1 in M. apply same_kept. exact M.
        - destruct (requester_handle_msg R rsp) as [r R'] eqn:EH. destruct r as [b|e|p].
          + assert (NE : st <> ReqError).
            { intros ->. unfold requester_handle_msg in EH. rewrite ES in EH. cbn in EH. discriminate. }
            destruct (reached_inv root R st HS HR ES NE) as (ER & W & SO).
            destruct (handle_sound R rsp b R' st O1 HS ES SO W EH) as (st2 & E2 & _ & _ & _ & A). rewrite E1 in E2. injection E2 as <-.
            destruct (accepted_kept _ _ _ _ _ _ A) as [->|K]; [congruence|exact K].
          + exfalso. apply C41_error_state in EH. congruence.
          + exfalso. unfold requester_handle_msg in EH. rewrite ES in EH.
            destruct (req_dispatch _ _ _ _) as [[st2|e1|p1] t1]; try discriminate. injection EH as _ <-. discriminate. }
      specialize (IH _ st1 HR1 E1 O2). destruct (req_state (req_after (req_after_call R c) calls)) as [st2|]; [|exact I].
      destruct K as (K1 & K2 & K3 & K4).
      destruct st2; try exact I; destruct IH as (J1 & J2 & J3 & J4);
        exact (conj (still_trans _ _ _ K1 J1) (conj (still_trans _ _ _ K2 J2) (conj (still_trans _ _ _ K3 J3) (still_trans _ _ _ K4 J4)))).
Qed.
End PropReport.

#[local] Existing Instance sample_cfg.
#[local] Existing Instance sample_crypto.
(** A responder that answered two challenges shows what was agreed, and still does
    after a third. *)
Example C81_responder_example : setting sample_slots /\ session sample_slots (served_ex sample_twice) (served_R sample_twice) /\
  (exists al, option_map rsp_shown_algorithms (rsp_state (served_R sample_twice)) = Some (Some al) /\
     al_base_asym al = 0x10%N /\ al_base_hash al = 1%N) /\
  option_map rsp_shown_caps (rsp_state (served_R sample_twice)) = Some (Some (12, 17350, 12, 17350)%N) /\
  no_restart_call (CallHandle (sample_rnd 9) (sample_request 5) big_buf) /\ call_ok (CallHandle (sample_rnd 9) (sample_request 5) big_buf).
Proof.
  refine (conj sample_setting (conj sample_twice_session (conj _ (conj _ (conj _ (conj _ (sample_rnd_ok 9 _))))))).
  - eexists. split; [vm_compute; reflexivity|]. split; reflexivity.
  - vm_compute. reflexivity.
  - vm_compute. discriminate.
  - apply bytes_check. reflexivity.
  - reflexivity.
Qed.
(** A requester that has received the certificates. *)
Example C81_requester_example : req_setting /\ req_session [1; 2; 3]%N (driven_ev 5) (driven_R 5) /\
  option_map req_shown_version (req_state (driven_R 5)) = Some (Some (mkVE 1 1 0 0)%N) /\
  option_map req_shown_caps (req_state (driven_R 5)) = Some (Some (12, 17350, 12, 17350)%N) /\
  exists c, option_map req_shown_certificate (req_state (driven_R 5)) = Some (Some (0%N, c)) /\ length c = 47.
Proof.
  refine (conj sample_req_setting (conj (driven_session 5 ltac:(lia)) (conj _ (conj _ _)))).
  - vm_compute. reflexivity.
  - vm_compute. reflexivity.
  - eexists. split; [vm_compute; reflexivity|]. reflexivity.
Qed.
