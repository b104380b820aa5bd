(** C24-C27: the responder's state machine over arbitrary histories. *)
From Verif Require Import Base BaseLemmas Config Encoding MsgCommon MsgVersion MsgCapabilities MsgAlgorithms MsgDigest
     MsgCertificates MsgChallenge MsgError Transcript Crypto Responder SpecWire SpecMsgs SpecResponder FlagLemmas
     WriterLogic WriterSafe PropTools PropTranscript PropChal PropGeneric RspParts RspStep RspSim RspPanic.

#[local] Opaque chain_bytes.
#[local] Arguments Nat.leb : simpl never.
Section PropResponder.
Context {cfg : Config} {cr : Crypto}.

(** * Reachable responders are well-formed *)
Lemma handle_slots R rnd req rsp : let '(_, _, R') := responder_handle_msg R rnd req rsp in rsp_slots R' = rsp_slots R.
Proof.
  unfold responder_handle_msg. destruct (rsp_state R) as [st|]; [|reflexivity].
  destruct (rsp_dispatch _ _ _ _ _) as [r c]. destruct (rsp_finish r (c_rsp c)) as [[? ?] ?]. reflexivity.
Qed.
Lemma handle_wf R rnd req rsp : t_wf (rsp_transcript R) ->
  let '(_, _, R') := responder_handle_msg R rnd req rsp in t_wf (rsp_transcript R').
Proof.
  intros W. unfold responder_handle_msg. destruct (rsp_state R) as [st|]; [|exact W].
  pose proof (hsim_dispatch st (rsp_slots R) rnd req (mkCtx rsp (rsp_transcript R)) (mkCtx rsp (rsp_transcript R))) as HS.
  destruct (rsp_dispatch _ _ _ _ _) as [r c]. destruct (rsp_finish r (c_rsp c)) as [[? ?] ?]. cbn [rsp_transcript].
  apply HS. split; [reflexivity|]. auto.
Qed.
Lemma after_ok slots calls : forall R, rsp_slots R = slots -> t_wf (rsp_transcript R) ->
  rsp_slots (after R calls) = slots /\ t_wf (rsp_transcript (after R calls)).
Proof.
  induction calls as [|c r IH]; intros R HS W; [auto|]. simpl. apply IH.
  - destruct c as [rnd req rsp|]; simpl; [|auto]. pose proof (handle_slots R rnd req rsp) as X.
    destruct (responder_handle_msg R rnd req rsp) as [[? ?] ?]. congruence.
  - destruct c as [rnd req rsp|]; simpl.
    + pose proof (handle_wf R rnd req rsp W) as X. destruct (responder_handle_msg R rnd req rsp) as [[? ?] ?]. auto.
    + destruct (t_clear_spec _ W) as (X & _). exact X.
Qed.
Lemma reached_ok slots R : reached slots R -> rsp_slots R = slots /\ t_wf (rsp_transcript R).
Proof. intros (calls & _ & ->). apply after_ok; [reflexivity|apply t_new_wf]. Qed.
Lemma reached_step slots R c : reached slots R -> call_ok c -> reached slots (after_call R c).
Proof.
  intros (calls & F & ->) HC. exists (calls ++ [c]). split; [apply Forall_app; auto|].
  unfold after. rewrite fold_left_app. reflexivity.
Qed.
Lemma reached_handle slots R rnd req rsp a b R' : reached slots R -> bytes req -> rnd_ok rnd ->
  responder_handle_msg R rnd req rsp = (a, b, R') -> reached slots R'.
Proof. intros HR HB RK E1. pose proof (reached_step slots R (CallHandle rnd req rsp) HR (conj HB RK)) as X. simpl in X. now rewrite E1 in X. Qed.
Lemma session_reached slots ex R : session slots ex R -> reached slots R.
Proof.
  induction 1 as [|R HR|ex R rnd req rsp out rsp' R' HS IH HB RK HH].
  - exists []. split; [constructor|reflexivity].
  - exact (reached_step slots R CallReset HR I).
  - eapply reached_handle; eauto.
Qed.

(** * One step, against the specification *)
Lemma step_sound slots R rnd req rsp out rsp' R' : setting slots -> reached slots R -> bytes req -> rnd_ok rnd ->
  responder_handle_msg R rnd req rsp = (Replied out (Ok tt), rsp', R') ->
  exists st st' log', rsp_state R = Some st /\ rsp_state R' = Some st' /\ t_get (rsp_transcript R') = log' /\
    served slots rnd req st (t_get (rsp_transcript R)) out st' log' /\
    length out <= length rsp /\ rsp' = out ++ skipn (length out) rsp /\ length log' <= TRANSCRIPT_SIZE.
Proof.
  intros (HL & H8 & HC) HR HB RK H. destruct (reached_ok _ _ HR) as [HS W].
  pose proof (handle_wf R rnd req rsp W) as W'. rewrite H in W'.
  unfold responder_handle_msg in H. destruct (rsp_state R) as [st|]; [|discriminate]. rewrite HS in H.
  destruct (rsp_dispatch st slots rnd req (mkCtx rsp (rsp_transcript R))) as [r c] eqn:ED.
  destruct r as [[size st']|e|p]; unfold rsp_finish in H.
  - pose proof (dispatch_sound slots rnd req HB HL H8 HC st (mkCtx rsp (rsp_transcript R)) _ _ _ W RK ED) as (o & log' & SV & -> & L1 & R1 & W1 & G1).
    cbn [c_rsp c_tr] in *. destruct (Nat.leb_spec (length o) (length (c_rsp c))) as [L2|L2].
    2: { rewrite R1, app_length in L2. lia. }
    injection H as E1 E2 E3. subst rsp' R' out. rewrite R1, firstn_app_exact by reflexivity.
    exists st, st', log'. cbn [rsp_state rsp_transcript]. split; [reflexivity|]. split; [reflexivity|]. split; [exact G1|]. split; [exact SV|].
    split; [exact L1|]. split; [reflexivity|]. rewrite <- G1, t_get_length by auto. apply W1.
  - destruct (write_msg _ _ _ _) as [[size|e'|p] rsp2]; try discriminate. destruct (size <=? length rsp2); discriminate.
  - discriminate.
Qed.
Lemma step_complete slots R rnd req rsp st out st' log' : setting slots -> reached slots R -> bytes req -> rnd_ok rnd ->
  rsp_state R = Some st -> served slots rnd req st (t_get (rsp_transcript R)) out st' log' ->
  length out <= length rsp -> length log' <= TRANSCRIPT_SIZE ->
  exists R', responder_handle_msg R rnd req rsp = (Replied out (Ok tt), out ++ skipn (length out) rsp, R') /\
    rsp_state R' = Some st' /\ t_get (rsp_transcript R') = log'.
Proof.
  intros (HL & H8 & HC) HR HB RK ES SV L1 L2. destruct (reached_ok _ _ HR) as [HS W].
  destruct (dispatch_complete slots rnd req HB HL H8 HC st (mkCtx rsp (rsp_transcript R)) out st' log' W RK SV L1 L2)
    as (c' & D1 & R1 & W1 & G1).
  unfold responder_handle_msg. rewrite ES, HS, D1. cbn [rsp_finish]. cbn [c_rsp] in R1. rewrite R1.
  destruct (Nat.leb_spec (length out) (length (out ++ skipn (length out) rsp))) as [|X].
  2: { rewrite app_length in X. lia. }
  rewrite firstn_app_exact by reflexivity. eexists. split; [reflexivity|]. cbn [rsp_state rsp_transcript]. auto.
Qed.
Lemma step_error R rnd req rsp out e rsp' R' : 
  responder_handle_msg R rnd req rsp = (Replied out (Err e), rsp', R') ->
  exists st c, rsp_state R = Some st /\ rsp_dispatch st (rsp_slots R) rnd req (mkCtx rsp (rsp_transcript R)) = (Err e, c) /\
    R' = mkResponder (rsp_slots R) (c_tr c) (Some RspError) /\
    writes_exactly (write_error (responder_error_to_msg e)) (fun x => x = BufferFull) (error_reply e) /\
    ((length (error_reply e) <= length (c_rsp c) /\ out = error_reply e /\ rsp' = out ++ skipn (length out) (c_rsp c)) \/
     (length (c_rsp c) < length (error_reply e) /\ out = [] /\ length rsp' = length (c_rsp c))).
Proof.
  intros H. unfold responder_handle_msg in H. destruct (rsp_state R) as [st|]; [|discriminate].
  destruct (rsp_dispatch _ _ _ _ _) as [r c] eqn:ED. exists st, c. split; [reflexivity|]. rewrite ED.
  destruct r as [[size st']|e1|p]; unfold rsp_finish in H.
  - destruct (size <=? _); discriminate.
  - assert (EN : [0x12; 0x7F]%N ++ error_layout (responder_error_to_msg e1) = error_reply e1).
    { clear. destruct e1 as [|x| | | | |x|x|x| |x|x]; try reflexivity; destruct x; try reflexivity;
      match goal with y : ReadError |- _ => destruct y; reflexivity end. }
    pose proof (C16_error_write (responder_error_to_msg e1)) as WR. rewrite EN in WR.
    change (write_msg Error_id (fun e => e) (error_write_body (responder_error_to_msg e1)) (c_rsp c))
      with (write_error (responder_error_to_msg e1) (c_rsp c)) in H.
    destruct (WR (c_rsp c)) as [W1 W2]. destruct (Nat.le_gt_cases (length (error_reply e1)) (length (c_rsp c))) as [L|L].
    + rewrite (W1 L) in H. destruct (Nat.leb_spec (length (error_reply e1)) (length (error_reply e1 ++ skipn (length (error_reply e1)) (c_rsp c)))) as [|X].
      2: { rewrite app_length in X. lia. }
      rewrite firstn_app_exact in H by reflexivity. injection H as <- <- <- <-. split; [reflexivity|]. split; [reflexivity|]. split; [exact WR|]. left. auto.
    + destruct (W2 L) as (e2 & k & -> & K1 & K2). rewrite K2 in H. injection H as <- <- <- <-.
      split; [reflexivity|]. split; [reflexivity|]. split; [exact WR|]. right. split; [auto|]. split; [auto|].
      rewrite app_length, firstn_length, skipn_length. lia.
  - discriminate.
Qed.
End PropResponder.
