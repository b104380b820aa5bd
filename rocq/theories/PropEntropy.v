(** C85: what a failing random source does. *)
From Verif Require Import Base BaseLemmas Config Encoding MsgCommon MsgChallenge Transcript Crypto Responder Requester Entropy
     SpecWire SpecResponder SpecRequester PropTools PropTranscript WriterSafe RspSim PropTables PropResponder PropRspState Sample SampleRun SampleReq.

Section PropEntropy.
Context {cfg : Config} {cr : Crypto}.

(** * A working source *)
(** With a source that works these are the endpoints of Responder.v and Requester.v. *)
Theorem C85_working_source nonce :
  (forall R sign req rsp, responder_handle_msg_e R (Some nonce) sign req rsp = responder_handle_msg R (mkRnd nonce sign) req rsp) /\
  (forall R buf, requester_next_request_e R (Some nonce) buf = requester_next_request R nonce buf).
Proof.
  assert (D : forall E, @nonce_draw cfg E (Some nonce) = Ok (nonce_new nonce)) by (intros; unfold nonce_draw, nonce_new; now destruct feature_rand).
  split.
  - intros R sign req rsp. unfold responder_handle_msg_e, responder_handle_msg. destruct (rsp_state R) as [st|]; [|reflexivity].
    replace (rsp_dispatch_e st (rsp_slots R) (Some nonce) sign req) with (rsp_dispatch st (rsp_slots R) (mkRnd nonce sign) req); [reflexivity|].
    destruct st; try reflexivity. cbn [rsp_dispatch rsp_dispatch_e]. unfold challenge_handle_msg_e. rewrite D. reflexivity.
  - intros R buf. unfold requester_next_request_e, requester_next_request. destruct (req_state R) as [st|]; [|reflexivity].
    replace (write_req_e st (Some nonce)) with (write_req st nonce); [reflexivity|].
    destruct st; try reflexivity. cbn [write_req write_req_e]. unfold chal_write_msg_e. rewrite D. reflexivity.
Qed.

(** * The requester *)
Definition about_to_challenge (R : Requester) : Prop := exists s, req_state R = Some (ReqChallenge s).
(** With a failing source only writing a CHALLENGE fails: by a panic that leaves
    buffer, transcript and state as they were.  Everything else, and everything in
    a build without the rand feature, is as with any working source. *)
Theorem C85_requester R buf :
  (feature_rand = true /\ about_to_challenge R -> requester_next_request_e R None buf = (Panic PEntropy, buf, R)) /\
  (~ (feature_rand = true /\ about_to_challenge R) -> forall nonce, requester_next_request_e R None buf = requester_next_request R nonce buf).
Proof.
  split.
  - intros (F & s & ES). unfold requester_next_request_e. rewrite ES. cbn [write_req_e]. unfold chal_write_msg_e, nonce_draw. rewrite F.
    unfold bind, lift. cbn [q_buf q_tr q_state]. rewrite <- ES. now destruct R.
  - intros H nonce. unfold requester_next_request_e, requester_next_request. destruct (req_state R) as [st|] eqn:ES; [|reflexivity].
    replace (write_req_e st None) with (write_req st nonce); [reflexivity|]. destruct st as [| | | | |s|]; try reflexivity.
    cbn [write_req write_req_e]. unfold chal_write_msg_e, chal_write_msg, nonce_draw, nonce_new. destruct feature_rand; [|reflexivity].
    destruct H. split; [reflexivity|]. now exists s.
Qed.
(** So the requester can go on as soon as the source works again: histories with
    failures reach no state that histories without do not. *)
Inductive req_call_e := NextE (source : option (list N)) (buf : list N) | MsgE (rsp : list N).
Definition req_call_e_ok (c : req_call_e) : Prop :=
  match c with NextE (Some fresh) _ => fresh_ok fresh | NextE None _ => True | MsgE rsp => bytes rsp end.
Definition req_after_e (R : Requester) (calls : list req_call_e) : Requester :=
  fold_left (fun R c => match c with NextE source buf => snd (requester_next_request_e R source buf) | MsgE rsp => snd (requester_handle_msg R rsp) end) calls R.
Theorem C85_requester_histories root calls : Forall req_call_e_ok calls -> req_reached root (req_after_e (requester_new root) calls).
Proof.
  intros F. cut (forall R, req_reached root R -> req_reached root (req_after_e R calls)); [intros G; apply G; exists []; split; [constructor|reflexivity]|].
  induction F as [|c calls Hc F IH]; intros R HR; [exact HR|]. cbn [req_after_e fold_left]. apply IH.
  assert (ST : forall c0, req_call_ok c0 -> req_reached root (req_after_call R c0)).
  { intros c0 H0. destruct HR as (l & FL & ->). exists (l ++ [c0]). split; [apply Forall_app; auto|]. unfold req_after. now rewrite fold_left_app. }
  destruct c as [[fresh|] buf|rsp].
  - rewrite (proj2 (C85_working_source fresh)). specialize (ST (CallNext fresh buf) Hc). cbn in ST. now destruct (requester_next_request R fresh buf) as [[? ?] ?].
  - destruct (C85_requester R buf) as [A B].
    assert (Z : exists z, fresh_ok z).
    { exists (repeat 0%N 32). split; [apply repeat_length|]. apply Forall_forall. intros x Hx. apply repeat_spec in Hx. subst. reflexivity. }
    destruct Z as (z & Hz). specialize (ST (CallNext z buf) Hz). cbn in ST. specialize (fun H => B H z). destruct feature_rand eqn:EF.
    + destruct (req_state R) as [[| | | | |s|]|] eqn:ES.
      6: { rewrite A; [exact HR|]. split; [reflexivity|]. now exists s. }
      all: rewrite B by (intros (_ & s' & X); congruence); now destruct (requester_next_request R z buf) as [[? ?] ?].
    + rewrite B by (intros [X _]; discriminate). now destruct (requester_next_request R z buf) as [[? ?] ?].
  - specialize (ST (CallMsg rsp) Hc). cbn in ST. now destruct (requester_handle_msg R rsp) as [? ?].
Qed.

(** * The responder *)
(** Handlers that only add to the transcript. *)
Definition hgrow {A} (m : H A) : Prop := forall c, t_wf (c_tr c) ->
  t_wf (c_tr (snd (m c))) /\ exists more, t_get (c_tr (snd (m c))) = t_get (c_tr c) ++ more.
Lemma hgrow_bind {A B} (m : H A) (k : A -> H B) : hgrow m -> (forall a, hgrow (k a)) -> hgrow (bind m k).
Proof.
  intros Hm Hk c W. destruct (Hm c W) as (W1 & m1 & G1). unfold bind. destruct (m c) as [[a|e|p] c1]; cbn [snd] in *; eauto.
  destruct (Hk a c1 W1) as (W2 & m2 & G2). split; [exact W2|]. exists (m1 ++ m2). now rewrite G2, G1, app_assoc.
Qed.
Lemma hgrow_same {A} (m : H A) : (forall c, c_tr (snd (m c)) = c_tr c) -> hgrow m.
Proof. intros H c W. rewrite H. split; [exact W|]. exists []. now rewrite app_nil_r. Qed.
Lemma hgrow_extend bs : hgrow (c_extend bs).
Proof.
  intros [r t] W. cbn [c_tr] in *. unfold c_extend, map_err. cbn [c_tr c_rsp]. destruct (t_extend_spec t bs W) as [A B].
  destruct (le_lt_dec (t_len t + length bs) TRANSCRIPT_SIZE) as [L|L].
  - destruct (A L) as (t' & -> & W' & G & _). cbn [snd c_tr]. split; [exact W'|]. now exists bs.
  - rewrite (B L). cbn [snd c_tr]. split; [exact W|]. exists []. now rewrite app_nil_r.
Qed.

(** What a working source would have led to: the request is taken into the log of
    a session in its challenge phase. *)
Definition enters_log (R : Responder) (sign req rsp : list N) : Prop :=
  exists nonce more, t_get (rsp_transcript (snd (responder_handle_msg R (mkRnd nonce sign) req rsp))) = t_get (rsp_transcript R) ++ req ++ more.
Definition needs_nonce (R : Responder) (sign req rsp : list N) : Prop :=
  feature_rand = true /\ (exists s, rsp_state R = Some (RspChallenge s)) /\ code req = 0x83%N /\ enters_log R sign req rsp.

(** One CHALLENGE handled: nothing is logged and the nonce is not looked at, or the
    request is logged and the nonce needed. *)
Definition forks (req : list N) (me : H (nat * RspStates)) (m : list N -> H (nat * RspStates)) : Prop := forall c, t_wf (c_tr c) ->
  ((forall n, me c = m n c) /\ t_get (c_tr (snd (me c))) = t_get (c_tr c)) \/
  (exists t, me c = (Panic PEntropy, mkCtx (c_rsp c) t) /\ t_wf t /\ t_get t = t_get (c_tr c) ++ req /\
     forall n, exists more, t_get (c_tr (snd (m n c))) = t_get (c_tr c) ++ req ++ more).
Lemma forks_bind {A} req (x : H A) ke k : (forall c, snd (x c) = c) -> (forall a, forks req (ke a) (fun n => k n a)) -> forks req (bind x ke) (fun n => bind x (k n)).
Proof.
  intros S K c W. specialize (S c). unfold bind. destruct (x c) as [[a|e|p] c1]; cbn [snd] in S; subst c1.
  - destruct (K a c W) as [L|R]; auto.
  - left. auto.
  - left. auto.
Qed.
Lemma challenge_forks s slots sign req : feature_rand = true -> length slots <= 8 -> parse_header GetVersion_id req = Ok false ->
  forks req (challenge_handle_msg_e s slots None sign req) (fun n => challenge_handle_msg s slots (mkRnd n sign) req).
Proof.
  intros EF HL HP. unfold challenge_handle_msg_e, challenge_handle_msg, reset_on_get_version. rewrite HP.
  assert (SL : forall A (r : res ResponderError A) (c : Ctx), snd (lift r c) = c) by reflexivity.
  assert (SM : forall E A (f : E -> ResponderError) (r : res E A) (c : Ctx), snd (map_err f (lift r) c) = c).
  { intros E A f r c. unfold map_err, lift. now destruct r. }
  apply forks_bind; [apply SL|intros _]. cbv zeta. apply forks_bind; [apply SL|intros ds]. apply forks_bind; [apply SL|intros ss].
  apply forks_bind; [apply SL|intros body]. apply forks_bind; [apply SM|intros msg]. apply forks_bind; [apply SL|intros slot]. apply forks_bind; [apply SL|intros dig].
  assert (BE : forall A C (m : H A) (k : A -> H C) c e c1, m c = (Err e, c1) -> bind m k c = (Err e, c1)) by (intros A C m k c e c1 H; unfold bind; now rewrite H).
  assert (BO : forall A C (m : H A) (k : A -> H C) c x c1, m c = (Ok x, c1) -> bind m k c = k x c1) by (intros A C m k c e c1 H; unfold bind; now rewrite H).
  intros [rsp t] W. cbn [c_tr] in W.
  destruct (t_extend_spec t req W) as [A B]. destruct (le_lt_dec (t_len t + length req) TRANSCRIPT_SIZE) as [L|L].
  2: { assert (X : exists e, c_extend req (mkCtx rsp t) = (Err e, mkCtx rsp t)) by (unfold c_extend, map_err; cbn [c_tr c_rsp]; rewrite (B L); eauto).
       destruct X as (e & X). left. rewrite (BE _ _ _ _ _ _ _ X). split; [|reflexivity]. intros n. now rewrite (BE _ _ _ _ _ _ _ X). }
  destruct (A L) as (t' & E' & W' & G' & _). right.
  assert (X : c_extend req (mkCtx rsp t) = (Ok tt, mkCtx rsp t')) by (unfold c_extend, map_err; cbn [c_tr c_rsp]; now rewrite E').
  destruct (@C45_slot_mask cfg ResponderError _ slots HL) as (mask & EM & _). exists t'.
  split.
  { rewrite (BO _ _ _ _ _ _ _ X). rewrite EM. unfold bind, lift, nonce_draw. now rewrite EF. }
  split; [exact W'|]. split; [exact G'|]. intros n. rewrite (BO _ _ _ _ _ _ _ X).
  match goal with |- context [snd (?m (mkCtx rsp t'))] => assert (HG : hgrow m) end.
  { repeat first
    [ apply hgrow_extend
    | apply hgrow_bind; [|intros ?]
    | apply hgrow_same; intros c; unfold lift, map_err, c_write, c_prefix, gets, c_copy, ret, pnc;
      repeat match goal with |- context [match ?x with _ => _ end] => destruct x end; reflexivity ]. }
  destruct (HG (mkCtx rsp t') W') as (_ & more & ->). exists more. cbn [c_tr]. now rewrite G', <- app_assoc.
Qed.
Lemma header_version req : match parse_header GetVersion_id req with
  | Ok true | Err _ => code req = 0x84%N
  | Ok false => code req <> 0x84%N /\ 2 < length req
  | Panic _ => length req <= 2 end.
Proof.
  unfold parse_header. destruct (Nat.ltb_spec 2 (length req)) as [L|L]; cbn [negb]; [|exact L].
  destruct req as [|b0 [|b1 r]]; cbn [length] in L; try lia. cbn [nth_error]. unfold code. cbn [nth].
  destruct (N.eqb_spec b1 (SPDM_CODE GetVersion_id)) as [E|E]; cbn [negb]; [|split; [exact E|cbn [length]; lia]].
  destruct (_ =? _)%N; exact E.
Qed.
Lemma responder_split slots R sign req rsp : setting slots -> rsp_slots R = slots -> t_wf (rsp_transcript R) ->
  (needs_nonce R sign req rsp /\ exists R', responder_handle_msg_e R None sign req rsp = (Panicked PEntropy, rsp, R') /\
     rsp_state R' = None /\ rsp_slots R' = slots /\ t_wf (rsp_transcript R') /\ t_get (rsp_transcript R') = t_get (rsp_transcript R) ++ req) \/
  (~ needs_nonce R sign req rsp /\ forall nonce, responder_handle_msg_e R None sign req rsp = responder_handle_msg R (mkRnd nonce sign) req rsp).
Proof.
  intros (HL1 & HL2 & _) HS W.
  assert (EASY : (forall nonce, responder_handle_msg_e R None sign req rsp = responder_handle_msg R (mkRnd nonce sign) req rsp) -> ~ needs_nonce R sign req rsp ->
  (needs_nonce R sign req rsp /\ exists R', responder_handle_msg_e R None sign req rsp = (Panicked PEntropy, rsp, R') /\
     rsp_state R' = None /\ rsp_slots R' = slots /\ t_wf (rsp_transcript R') /\ t_get (rsp_transcript R') = t_get (rsp_transcript R) ++ req) \/
  (~ needs_nonce R sign req rsp /\ forall nonce, responder_handle_msg_e R None sign req rsp = responder_handle_msg R (mkRnd nonce sign) req rsp)) by auto.
  destruct feature_rand eqn:EF.
  2: { apply EASY; [|intros (X & _); congruence]. intros nonce. unfold responder_handle_msg_e, responder_handle_msg. destruct (rsp_state R) as [st|]; [|reflexivity].
       replace (rsp_dispatch_e st (rsp_slots R) None sign req) with (rsp_dispatch st (rsp_slots R) (mkRnd nonce sign) req); [reflexivity|].
       destruct st; try reflexivity. cbn [rsp_dispatch rsp_dispatch_e]. unfold challenge_handle_msg_e, challenge_handle_msg, nonce_draw, nonce_new. now rewrite EF. }
  destruct (rsp_state R) as [[| | | | |s]|] eqn:ES.
  1-5, 7: apply EASY; [intros nonce; unfold responder_handle_msg_e, responder_handle_msg; now rewrite ES|intros (_ & (s' & X) & _); congruence].
  pose proof (header_version req) as HV. destruct (parse_header GetVersion_id req) as [[|]|e|p] eqn:EP.
  - apply EASY; [|intros (_ & _ & X & _); congruence]. intros nonce. unfold responder_handle_msg_e, responder_handle_msg. rewrite ES.
    cbn [rsp_dispatch rsp_dispatch_e]. unfold challenge_handle_msg_e, challenge_handle_msg, reset_on_get_version. now rewrite EP.
  - destruct HV as [_ L2].
    destruct (challenge_forks s slots sign req EF ltac:(lia) EP (mkCtx rsp (rsp_transcript R)) W) as [[A B]|(t & A & Wt & Gt & C)].
    + apply EASY.
      * intros nonce. unfold responder_handle_msg_e, responder_handle_msg. rewrite ES, HS. cbn [rsp_dispatch rsp_dispatch_e]. now rewrite (A nonce).
      * intros (_ & _ & _ & nonce & more & X). revert X. unfold responder_handle_msg. rewrite ES, HS. cbn [rsp_dispatch]. rewrite <- (A nonce).
        destruct (challenge_handle_msg_e s slots None sign req (mkCtx rsp (rsp_transcript R))) as [r c]. cbn [snd] in B.
        destruct (rsp_finish r (c_rsp c)) as [[a b] st']. cbn [snd rsp_transcript]. cbn [c_tr] in B. rewrite B. intros X.
        apply (f_equal (@length N)) in X. rewrite !app_length in X. lia.
    + destruct (N.eq_dec (code req) 0x83) as [EC|EC]; [left; split|exfalso].
      2: { exists (mkResponder (rsp_slots R) t None). unfold responder_handle_msg_e. rewrite ES, HS. cbn [rsp_dispatch_e]. rewrite A. cbn [c_rsp c_tr rsp_finish].
        split; [reflexivity|]. split; [reflexivity|]. split; [reflexivity|]. split; [exact Wt|]. exact Gt. }
      * split; [exact EF|]. split; [eauto|]. split; [exact EC|]. exists []. destruct (C []) as (more & G). exists more.
           revert G. unfold responder_handle_msg. rewrite ES, HS. cbn [rsp_dispatch].
           destruct (challenge_handle_msg s slots (mkRnd [] sign) req (mkCtx rsp (rsp_transcript R))) as [r c]. cbn [snd c_tr].
           destruct (rsp_finish r (c_rsp c)) as [[a b] st']. auto.
      * revert A. unfold challenge_handle_msg_e, reset_on_get_version. rewrite EP. unfold bind at 1, lift at 1, rsp_expect.
           destruct req as [|b0 [|b1 r0]]; cbn [length] in L2; try lia. unfold parse_header.
           destruct (Nat.ltb_spec 2 (length (b0 :: b1 :: r0))) as [L3|L3]; [|cbn [length] in *; lia]. cbn [negb nth_error]. unfold code in EC. cbn [nth] in EC.
           destruct (N.eqb_spec b1 (SPDM_CODE Challenge_id)) as [E|E]; [destruct (EC E)|]. discriminate.
  - apply EASY; [|intros (_ & _ & X & _); congruence]. intros nonce. unfold responder_handle_msg_e, responder_handle_msg. rewrite ES.
    cbn [rsp_dispatch rsp_dispatch_e]. unfold challenge_handle_msg_e, challenge_handle_msg, reset_on_get_version. now rewrite EP.
  - assert (EQ : forall nonce, responder_handle_msg_e R None sign req rsp = responder_handle_msg R (mkRnd nonce sign) req rsp).
    { intros nonce. unfold responder_handle_msg_e, responder_handle_msg. rewrite ES.
      cbn [rsp_dispatch rsp_dispatch_e]. unfold challenge_handle_msg_e, challenge_handle_msg, reset_on_get_version. now rewrite EP. }
    apply EASY; [exact EQ|]. intros (_ & _ & EC & nonce & more & X). revert X. unfold responder_handle_msg. rewrite ES. cbn [rsp_dispatch].
    unfold challenge_handle_msg, reset_on_get_version. rewrite EP. cbn [rsp_finish snd rsp_transcript c_tr c_rsp pnc]. intros X.
    apply (f_equal (@length N)) in X. rewrite !app_length in X. destruct req; [discriminate EC|cbn [length] in X; lia].
Qed.
(** With a failing source a responder fails only where it needs a nonce: then it
    panics, having written nothing, and is unusable until reset.  All other calls
    are as with any working source. *)
Theorem C85_responder slots R sign req rsp : setting slots -> reached slots R ->
  (needs_nonce R sign req rsp -> exists R', responder_handle_msg_e R None sign req rsp = (Panicked PEntropy, rsp, R') /\
     rsp_state R' = None /\ rsp_slots R' = slots /\ t_get (rsp_transcript R') = t_get (rsp_transcript R) ++ req) /\
  (~ needs_nonce R sign req rsp -> forall nonce, responder_handle_msg_e R None sign req rsp = responder_handle_msg R (mkRnd nonce sign) req rsp).
Proof.
  intros HS HR. destruct (reached_ok _ _ HR) as [E1 W]. destruct (responder_split slots R sign req rsp HS E1 W) as [(A & R' & B1 & B2 & B3 & _ & B4)|[A B]].
  - split; [intros _; exists R'; auto|]. intros N. destruct (N A).
  - split; [intros N; destruct (A N)|auto].
Qed.
(** A CHALLENGE is never answered without entropy, so never with a predictable nonce. *)
Theorem C85_no_answer_without_entropy slots R sign req rsp out rsp' R' : setting slots -> reached slots R -> feature_rand = true ->
  bytes req -> responder_handle_msg_e R None sign req rsp = (Replied out (Ok tt), rsp', R') -> code req <> 0x83%N.
Proof.
  intros HS HR EF HB HH EC. destruct (C85_responder slots R sign req rsp HS HR) as [A B].
  assert (NN : ~ needs_nonce R sign req rsp) by (intros X; destruct (A X) as (R2 & E2 & _); congruence).
  set (z := repeat 0%N 32). assert (Hz : rnd_ok (mkRnd z sign)).
  { split; [apply repeat_length|]. apply Forall_forall. intros x Hx. apply repeat_spec in Hx. subst. reflexivity. }
  rewrite (B NN z) in HH. apply NN. split; [exact EF|].
  destruct (step_sound slots R (mkRnd z sign) req rsp out rsp' R' HS HR HB Hz HH) as (st & st' & log' & ES & _ & EL & SV & _).
  assert (SW : forall p, starts_with p req -> 2 <= length p -> nth 1 p 0%N = 0x83%N).
  { intros p (r & ->) Lp. unfold code in EC. now rewrite app_nth1 in EC by lia. }
  remember (t_get (rsp_transcript R)) as log0 eqn:EL0. destruct SV as [st log H1 H2|s log ct flags own out H1 H2 H3 H4 H5|s log body na al es fs out H1 H2 H3 H4|s log mask out H1|s log slot off len out H1|s log slot t nonce mask filled ss signature out H1].
  1-5: match goal with H : starts_with _ _ |- _ => apply SW in H; [discriminate H|cbn; lia] end.
  split; [eauto|]. split; [exact EC|]. exists z, out. rewrite HH. cbn [snd]. now rewrite EL, EL0.
Qed.

(** * Histories with failures *)
Inductive call_e := HandleE (source : option (list N)) (sign req rsp : list N) | ResetE.
Definition call_e_ok (c : call_e) : Prop :=
  match c with HandleE (Some nonce) sign req _ => bytes req /\ rnd_ok (mkRnd nonce sign) | HandleE None _ req _ => bytes req | ResetE => True end.
Definition after_e (R : Responder) (calls : list call_e) : Responder :=
  fold_left (fun R c => match c with HandleE source sign req rsp => snd (responder_handle_msg_e R source sign req rsp) | ResetE => responder_reset R end) calls R.
(** Whatever calls were made, with the source failing now and then: the responder
    is unusable until reset, or it is in all its later behaviour one that is
    reached without failures. *)
Theorem C85_responder_histories slots calls : setting slots -> Forall call_e_ok calls ->
  let R := after_e (responder_new slots) calls in
  (rsp_state R = None \/ exists R0, reached slots R0 /\ forall later, observed R later = observed R0 later) /\
  forall later, observed (responder_reset R) later = observed (responder_new slots) later.
Proof.
  intros HS F. cbv zeta.
  set (inv R := rsp_slots R = slots /\ t_wf (rsp_transcript R) /\ (rsp_state R = None \/ exists R0, reached slots R0 /\ rsim R R0)).
  assert (NEW : inv (responder_new slots)).
  { split; [reflexivity|]. split; [apply t_new_wf|]. right. exists (responder_new slots). split; [exists []; split; [constructor|reflexivity]|].
    split; [reflexivity|]. split; [reflexivity|]. split; [apply t_new_wf|]. split; [apply t_new_wf|reflexivity]. }
  assert (RST : forall R, inv R -> rsim (responder_reset R) (responder_new slots)).
  { intros R (E1 & W & _). destruct (t_clear_spec _ W) as (A1 & A2 & _). split; [exact E1|]. split; [reflexivity|]. split; [exact A1|]. split; [apply t_new_wf|].
    unfold responder_reset; cbn [rsp_transcript]. now rewrite A2. }
  assert (STEP : forall R rnd req rsp, inv R -> bytes req -> rnd_ok rnd -> inv (snd (responder_handle_msg R rnd req rsp))).
  { intros R rnd req rsp (E1 & W & [N|(R0 & HR & S)]) HB HK.
    - unfold responder_handle_msg. rewrite N. cbn [snd]. split; [exact E1|]. split; [exact W|]. now left.
    - destruct (rsim_handle R R0 rnd req rsp S) as [_ S']. pose proof (reached_step slots R0 (CallHandle rnd req rsp) HR (conj HB HK)) as HR'. cbn [after_call] in HR'.
      destruct (responder_handle_msg R0 rnd req rsp) as [[a b] R0'] eqn:E0. cbn [snd] in *.
      destruct (reached_ok _ _ HR') as [X1 X2]. pose proof S' as (Y1 & Y2 & Y3 & _). split; [congruence|]. split; [exact Y3|]. right. now exists R0'. }
  assert (G : inv (after_e (responder_new slots) calls)).
  { revert NEW. generalize (responder_new slots). induction F as [|c calls Hc F IH]; intros R I; [exact I|]. cbn [after_e fold_left]. apply IH.
    destruct c as [[nonce|] sign req rsp|].
    - rewrite (proj1 (C85_working_source nonce)). apply STEP; [exact I|apply Hc|apply Hc].
    - destruct I as (E1 & W & D). destruct (responder_split slots R sign req rsp HS E1 W) as [(NN & R' & -> & E2 & E3 & W3 & _)|[NN B]].
      + split; [exact E3|]. split; [exact W3|]. now left.
      + set (z := repeat 0%N 32). rewrite (B z). apply STEP; [split; [exact E1|split; [exact W|exact D]]|exact Hc|].
        split; [apply repeat_length|]. apply Forall_forall. intros x Hx. apply repeat_spec in Hx. subst. reflexivity.
    - split; [apply I|]. pose proof (RST R I) as S. pose proof S as (_ & _ & X & _). split; [exact X|]. right. exists (responder_new slots).
      split; [exists []; split; [constructor|reflexivity]|exact S]. }
  split.
  - destruct G as (_ & _ & [N|(R0 & HR & S)]); [now left|]. right. exists R0. split; [exact HR|]. intros later. apply (rsim_calls later _ _ S).
  - intros later. apply (rsim_calls later _ _ (RST _ G)).
Qed.
End PropEntropy.

#[local] Existing Instance sample_cfg.
#[local] Existing Instance sample_crypto.
(** The sample run with a source that fails at the CHALLENGE. *)
Definition starved_rsp := Eval vm_compute in
  (let '(reply, buf, R) := responder_handle_msg_e (served_R (firstn 5 sample_requests)) None [] (sample_request 5) big_buf in
   (reply, if list_eq_dec N.eq_dec buf big_buf then true else false, rsp_state R, length (t_get (rsp_transcript R)))).
Definition starved_req := Eval vm_compute in
  (let '(r, buf, R) := requester_next_request_e (driven_R 5) None (repeat 7%N 8) in (r, buf, option_map req_state_name (req_state R))).
Example C85_example :
  starved_rsp = (Panicked PEntropy, true, None, length (t_get (rsp_transcript (served_R (firstn 5 sample_requests)))) + length (sample_request 5)) /\
  starved_req = (Panic PEntropy, repeat 7%N 8, Some "Challenge"%string) /\
  feature_rand = true /\ (exists s, rsp_state (served_R (firstn 5 sample_requests)) = Some (RspChallenge s)) /\ code (sample_request 5) = 0x83%N.
Proof. repeat split; try (vm_compute; reflexivity). vm_compute. eexists. reflexivity. Qed.
Lemma sample_enters_log : enters_log (served_R (firstn 5 sample_requests)) [] (sample_request 5) big_buf.
Proof.
  exists (repeat 1%N 32). eexists. vm_compute. reflexivity.
Qed.
Example C85_needs_nonce : needs_nonce (served_R (firstn 5 sample_requests)) [] (sample_request 5) big_buf.
Proof.
  destruct C85_example as (_ & _ & A & B & C). exact (conj A (conj B (conj C sample_enters_log))).
Qed.
Print Assumptions C85_responder_histories.
