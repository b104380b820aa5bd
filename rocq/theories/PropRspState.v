(** C24-C27, C33, C50: the responder's state machine over arbitrary histories. *)
From Verif Require Import Base BaseLemmas Config Encoding MsgCommon MsgVersion MsgCapabilities MsgAlgorithms MsgDigest
     MsgCertificates MsgChallenge MsgError Transcript Crypto Responder Requester SpecWire SpecMsgs SpecResponder FlagLemmas
     WriterLogic WriterSafe PropTools PropTranscript PropChal PropGeneric RspParts RspStep RspSim RspPanic PropResponder
     Sample SampleRun.

#[local] Opaque chain_bytes.
#[local] Arguments Nat.leb : simpl never.
Section PropRspState.
Context {cfg : Config} {cr : Crypto}.

(** * C24 *)
Theorem C24_get_version_restarts slots R rnd req rsp st : setting slots -> reached slots R -> bytes req -> rnd_ok rnd ->
  rsp_state R = Some st -> st <> RspError -> starts_with get_version_bytes req ->
  length version_reply <= length rsp -> length req + length version_reply <= TRANSCRIPT_SIZE ->
  exists R', responder_handle_msg R rnd req rsp =
      (Replied version_reply (Ok tt), version_reply ++ skipn (length version_reply) rsp, R') /\
    rsp_state R' = Some (RspCapabilities (mkRspCap None None None None)) /\
    t_get (rsp_transcript R') = req ++ version_reply.
Proof.
  intros HS HR HB RK ES NE SW L1 L2. apply (step_complete slots R rnd req rsp st); auto.
  - now apply served_version.
  - now rewrite app_length.
Qed.

(** * C25 *)
Definition code_facts (req out : list N) (st st' : RspStates) : Prop :=
  In (code req, nth 0 req 0%N) (accepts st) /\ (code out + 0x80 = code req)%N /\ st <> RspError /\ st' <> RspError /\ st' <> RspVersion /\
  (forall cur, phase st cur -> (code req <> 0x84)%N -> phase st' (cur ++ [code req])) /\
  ((code req = 0x84)%N -> phase st' [code req]).
Lemma code_facts_of a b r x y o st st' : In (b, a) (accepts st) -> (y + 0x80 = b)%N -> st <> RspError -> st' <> RspError -> st' <> RspVersion ->
  (forall cur, phase st cur -> (b <> 0x84)%N -> phase st' (cur ++ [b])) -> ((b = 0x84)%N -> phase st' [b]) ->
  code_facts (a :: b :: r) (x :: y :: o) st st'.
Proof. intros. repeat split; auto. Qed.
Lemma served_code slots rnd req st log out st' log' : served slots rnd req st log out st' log' -> code_facts req out st st'.
Proof.
  intros S. destruct S as [st log NE (r & ->) | s log ct flags own out (r & ->) OB NM FN ->
    | s log body na al es fs out (r & ->) NF AC -> | s log mask out (r & ->) L MS CF ->
    | s log slot off len out (r & ->) L1 L2 L3 CF -> | s log slot t nonce mask filled ss sg out (r & ->) NO NTH CF HU SL LE MS -> SG LS];
  unfold unsigned_auth; apply code_facts_of; try reflexivity; try discriminate; auto; cbn [phase].
  - destruct st; simpl; auto.
  - intros cur _ X. congruence.
  - simpl. auto.
  - intros cur -> _. reflexivity.
  - simpl. auto.
  - intros cur -> _. exists 0. reflexivity.
  - simpl. auto.
  - intros cur (d & ->) _. exists (S d). rewrite <- app_assoc. f_equal. symmetry; apply repeat_cons.
  - simpl. auto.
  - intros cur (d & ->) _. exists d, 0. rewrite <- app_assoc. reflexivity.
  - simpl. auto.
  - intros cur (d & k & ->) _. exists d, (S k). rewrite <- !app_assoc. do 3 f_equal. symmetry; apply repeat_cons.
Qed.

Lemma session_inv slots ex x R : session slots (ex ++ [x]) R ->
  exists R0 rnd rsp rsp', session slots ex R0 /\ bytes (fst x) /\ rnd_ok rnd /\
    responder_handle_msg R0 rnd (fst x) rsp = (Replied (snd x) (Ok tt), rsp', R).
Proof.
  intros H. remember (ex ++ [x]) as l eqn:El. destruct H as [|R HR|ex' R rnd req rsp out rsp' R' HS HB RK HH].
  - destruct ex; discriminate.
  - destruct ex; discriminate.
  - apply app_inj_tail in El as [-> <-]. exists R, rnd, rsp, rsp'. auto.
Qed.

(** Every served session is a protocol run: since the last GET_VERSION exactly the
    requests of the state's phase were answered, each with its own response. *)
Theorem C25_protocol_order slots ex R : setting slots -> session slots ex R ->
  exists st, rsp_state R = Some st /\
    (exists before cur, map (fun x => code (fst x)) ex = before ++ cur /\ phase st cur) /\
    (st = RspVersion -> ex = []) /\
    Forall (fun x => (code (snd x) + 0x80 = code (fst x))%N) ex.
Proof.
  intros HS H. induction H as [|R HR|ex R rnd req rsp out rsp' R' H IH HB RK HH].
  - exists RspVersion. repeat split; auto. exists [], []. split; reflexivity.
  - exists RspVersion. repeat split; auto. exists [], []. split; reflexivity.
  - destruct (step_sound slots R rnd req rsp out rsp' R' HS (session_reached _ _ _ H) HB RK HH)
      as (st & st' & log' & E1 & E2 & _ & SV & _).
    destruct IH as (st0 & E0 & (before & cur & EM & PH) & _ & FA). rewrite E1 in E0. injection E0 as <-.
    destruct (served_code _ _ _ _ _ _ _ _ SV) as (_ & C1 & _ & _ & C2 & C3 & C4).
    exists st'. split; [exact E2|]. split; [|split].
    + rewrite map_app. cbn [map fst]. destruct (N.eq_dec (code req) 0x84) as [Y|Y].
      * exists (before ++ cur), [code req]. rewrite EM. auto.
      * exists before, (cur ++ [code req]). rewrite EM, app_assoc. auto.
    + congruence.
    + apply Forall_app. auto.
Qed.

(** What is answered is what the state accepts. *)
Theorem C25_accepted slots R rnd req rsp out rsp' R' : setting slots -> reached slots R -> bytes req -> rnd_ok rnd ->
  responder_handle_msg R rnd req rsp = (Replied out (Ok tt), rsp', R') ->
  exists st, rsp_state R = Some st /\ In (code req, nth 0 req 0%N) (accepts st).
Proof.
  intros HS HR HB RK HH. destruct (step_sound slots R rnd req rsp out rsp' R' HS HR HB RK HH)
      as (st & st' & log' & E1 & E2 & _ & SV & _).
  exists st. split; [auto|]. exact (proj1 (served_code _ _ _ _ _ _ _ _ SV)).
Qed.

Lemma finish_error slots st tr rnd req rsp e : rsp_dispatch st slots rnd req (mkCtx rsp tr) = (Err e, mkCtx rsp tr) ->
  exists out rsp', responder_handle_msg (mkResponder slots tr (Some st)) rnd req rsp
    = (Replied out (Err e), rsp', mkResponder slots tr (Some RspError)).
Proof.
  intros ED. unfold responder_handle_msg. cbn [rsp_state rsp_slots rsp_transcript]. rewrite ED. unfold rsp_finish. cbn [c_rsp c_tr].
  change (write_msg Error_id (fun e => e) (error_write_body (responder_error_to_msg e)) rsp) with (write_error (responder_error_to_msg e) rsp).
  destruct (C16_error_write (responder_error_to_msg e) rsp) as [W1 W2]. set (L := length _) in *.
  destruct (Nat.le_gt_cases L (length rsp)) as [X|X].
  - rewrite (W1 X). destruct (Nat.leb_spec L (length (([18; 127]%N ++ error_layout (responder_error_to_msg e)) ++ skipn L rsp))) as [|Y]; [eauto|].
    rewrite app_length in Y. unfold L in *. lia.
  - destruct (W2 X) as (e2 & k & -> & _ & W3). rewrite W3. eauto.
Qed.
Definition reject (req : list N) (st : RspStates) (e : ResponderError) : Prop :=
  (In (code req) (map fst (accepts st)) -> e = RspParseHeader) /\
  (~ In (code req) (map fst (accepts st)) -> exists expected got, e = RspUnexpectedMsgCode expected got).
Lemma nth_code req : 2 < length req -> nth_error req 1 = Some (code req) /\ nth_error req 0 = Some (nth 0 req 0%N).
Proof. intros L. destruct req as [|a [|b r]]; simpl in L; try lia. auto. Qed.
Lemma header_cases k req : 2 < length req ->
  (code req = code_of k /\ nth 0 req 0%N = version_of k /\ parse_header (id_of k) req = Ok true) \/
  (code req = code_of k /\ nth 0 req 0%N <> version_of k /\ parse_header (id_of k) req = Err ParseHeaderErr) \/
  (code req <> code_of k /\ parse_header (id_of k) req = Ok false).
Proof.
  intros L. destruct (C20_parse_header k req L) as (H1 & H2 & H3). destruct (nth_code req L) as [E1 E0]. rewrite E1, E0 in *.
  destruct (N.eq_dec (code req) (code_of k)) as [C|D]; [destruct (N.eq_dec (nth 0 req 0%N) (version_of k)) as [C'|D]|].
  - left. rewrite H1, C, C'. auto.
  - right. left. rewrite H2, C. repeat split; auto. congruence.
  - right. right. rewrite H3. split; [auto|congruence].
Qed.
Lemma expect_cases k req : 2 < length req -> ~ (code req = code_of k /\ nth 0 req 0%N = version_of k) ->
  (code req = code_of k /\ rsp_expect (id_of k) req = Err RspParseHeader) \/
  (code req <> code_of k /\ exists a b, rsp_expect (id_of k) req = Err (RspUnexpectedMsgCode a b)).
Proof.
  intros L NH. unfold rsp_expect. destruct (header_cases k req L) as [(A & B & _)|[(A & B & ->)|(A & ->)]].
  - tauto.
  - left. auto.
  - right. split; [auto|]. destruct (nth_code req L) as [_ ->]. eauto.
Qed.
Lemma dispatch_rejects st slots rnd req c : st <> RspError -> 2 < length req -> ~ In (code req, nth 0 req 0%N) (accepts st) ->
  exists e, rsp_dispatch st slots rnd req c = (Err e, c) /\ reject req st e.
Proof.
  intros NE L NI.
  assert (HV : parse_header GetVersion_id req = Err ParseHeaderErr /\ code req = 0x84%N \/ parse_header GetVersion_id req = Ok false /\ code req <> 0x84%N).
  { destruct (header_cases KGetVersion req L) as [(A & B & _)|[(A & B & C)|(A & C)]]; [|auto|auto].
    exfalso. apply NI. rewrite A, B. destruct st; simpl; auto; congruence. }
  assert (GV : code req = 0x84%N -> In (code req) (map fst (accepts st))) by (intros ->; destruct st; simpl; auto; congruence).
  assert (EX : forall k rest, accepts st = [(0x84, 0x10); (code_of k, version_of k)]%N ->
    exists e, reset_on_get_version req (lift (rsp_expect (id_of k) req) ;;; rest) c = (Err e, c) /\ reject req st e).
  { intros k rest AC. unfold reset_on_get_version. destruct HV as [[-> HC]|[-> HC]].
    - exists RspParseHeader. split; [reflexivity|]. split; [auto|]. intros X. destruct (X (GV HC)).
    - rewrite AC in NI. simpl in NI. destruct (expect_cases k req L) as [(A & B)|(A & x & y & B)].
      + intros (A & B). apply NI. right. left. congruence.
      + exists RspParseHeader. unfold bind, lift. rewrite B. split; [reflexivity|]. split; [auto|]. intros X. destruct X. rewrite AC. simpl. auto.
      + exists (RspUnexpectedMsgCode x y). unfold bind, lift. rewrite B. split; [reflexivity|]. split; [|eauto].
        rewrite AC. simpl. intros [X|[X|[]]]; congruence. }
  destruct st as [| |s|s|s|s]; cbn [rsp_dispatch].
  - congruence.
  - unfold version_handle_msg. destruct HV as [[-> HC]|[-> HC]].
    + exists RspParseHeader. split; [reflexivity|]. split; [auto|]. intros X. destruct (X (GV HC)).
    + destruct (nth_code req L) as [_ ->]. eexists. split; [reflexivity|]. split; [|eauto]. simpl. intros [X|[]]. congruence.
  - apply (EX KGetCapabilities). reflexivity.
  - apply (EX KNegotiate). reflexivity.
  - unfold id_auth_handle_msg, reset_on_get_version. destruct HV as [[-> HC]|[-> HC]].
    + exists RspParseHeader. split; [reflexivity|]. split; [auto|]. intros X. destruct (X (GV HC)).
    + change GetDigests_id with (id_of KGetDigests). simpl in NI.
      destruct (header_cases KGetDigests req L) as [(A & B & _)|[(A & B & C)|(A & C)]].
      * exfalso. apply NI. right. left. rewrite A, B. reflexivity.
      * exists RspParseHeader. unfold bind, map_err, lift. rewrite C. split; [reflexivity|]. split; [auto|]. intros X. destruct X. simpl. auto.
      * unfold bind at 1, map_err, lift at 1. rewrite C. change GetCertificate_id with (id_of KGetCertificate).
        destruct (expect_cases KGetCertificate req L) as [(A' & B)|(A' & x & y & B)].
        -- intros (A' & B). apply NI. right. right. left. rewrite A', B. reflexivity.
        -- exists RspParseHeader. unfold bind, lift. rewrite B. split; [reflexivity|]. split; [auto|]. intros X. destruct X. simpl. auto.
        -- exists (RspUnexpectedMsgCode x y). unfold bind, lift. rewrite B. split; [reflexivity|]. split; [|eauto].
           simpl. intros [X|[X|[X|[]]]]; simpl in *; congruence.
  - apply (EX KChallenge). reflexivity.
Qed.

(** Anything else is rejected: the error state follows, the log stays. *)
Theorem C25_rejected R rnd req rsp st : rsp_state R = Some st -> st <> RspError -> 2 < length req ->
  ~ In (code req, nth 0 req 0%N) (accepts st) ->
  exists e out rsp' R', responder_handle_msg R rnd req rsp = (Replied out (Err e), rsp', R') /\
    rsp_state R' = Some RspError /\ t_get (rsp_transcript R') = t_get (rsp_transcript R) /\
    (In (code req) (map fst (accepts st)) -> e = RspParseHeader) /\
    (~ In (code req) (map fst (accepts st)) -> exists expected got, e = RspUnexpectedMsgCode expected got).
Proof.
  intros ES NE L NI. destruct R as [slots tr st0]. cbn [rsp_state] in ES. subst st0.
  destruct (dispatch_rejects st slots rnd req (mkCtx rsp tr) NE L NI) as (e & D & RJ).
  destruct (finish_error _ _ _ _ _ _ _ D) as (out & rsp' & H).
  exists e, out, rsp', (mkResponder slots tr (Some RspError)). split; [exact H|]. split; [reflexivity|]. split; [reflexivity|]. exact RJ.
Qed.

(** * C26 *)
Theorem C26_error_response slots R rnd req rsp out e rsp' R' : reached slots R ->
  responder_handle_msg R rnd req rsp = (Replied out (Err e), rsp', R') ->
  rsp_state R' = Some RspError /\ length rsp' = length rsp /\ starts_with out rsp' /\
  (length (error_reply e) <= length rsp -> out = error_reply e) /\
  (length rsp < length (error_reply e) -> out = []).
Proof.
  intros HR H. destruct (reached_ok _ _ HR) as [_ W]. destruct (step_error _ _ _ _ _ _ _ _ H) as (st & c & ES & ED & -> & _ & D).
  pose proof (hsim_dispatch st (rsp_slots R) rnd req (mkCtx rsp (rsp_transcript R)) (mkCtx rsp (rsp_transcript R))) as HS.
  destruct HS as (_ & _ & L); [split; auto|]. rewrite ED in L. cbn [snd c_rsp] in L. split; [reflexivity|].
  destruct D as [(D1 & -> & ->)|(D1 & -> & D2)].
  - split; [rewrite app_length, skipn_length; lia|]. split; [eexists; reflexivity|]. split; [auto|lia].
  - split; [lia|]. split; [eexists; reflexivity|]. split; [lia|auto].
Qed.
Theorem C26_error_encodes e :
  writes_exactly (write_error (responder_error_to_msg e)) (fun x => x = BufferFull) (error_reply e).
Proof.
  assert (EN : [0x12; 0x7F]%N ++ error_layout (responder_error_to_msg e) = error_reply e).
  { destruct e as [|x| | | | |x|x|x| |x|x]; try reflexivity; destruct x; try reflexivity;
      match goal with y : ReadError |- _ => destruct y; reflexivity end. }
  rewrite <- EN. apply C16_error_write.
Qed.
Theorem C26_success_response slots R rnd req rsp out rsp' R' : setting slots -> reached slots R -> bytes req -> rnd_ok rnd ->
  responder_handle_msg R rnd req rsp = (Replied out (Ok tt), rsp', R') ->
  rsp' = out ++ skipn (length out) rsp /\ length out <= length rsp /\
  exists st st', rsp_state R = Some st /\ rsp_state R' = Some st' /\ st' <> RspError /\
    served slots rnd req st (t_get (rsp_transcript R)) out st' (t_get (rsp_transcript R')).
Proof.
  intros HS HR HB RK HH. destruct (step_sound slots R rnd req rsp out rsp' R' HS HR HB RK HH)
      as (st & st' & log' & E1 & E2 & <- & SV & L & E3 & _).
  split; [auto|]. split; [auto|]. exists st, st'. repeat split; auto. apply (served_code _ _ _ _ _ _ _ _ SV).
Qed.

(** * C27 *)
(** The log does not depend on the signature size before a challenge was served. *)
Lemma log_of_snoc ss ex x : log_of ss (ex ++ [x]) = log_one ss (log_of ss ex) x.
Proof. unfold log_of. now rewrite fold_left_app. Qed.
Lemma nonchal_log ss req out log : code req <> 0x84%N -> code req <> 0x83%N -> log_one ss log (req, out) = log ++ req ++ out.
Proof. intros A B. unfold log_one. destruct (N.eqb_spec (code req) 0x84); [congruence|]. destruct (N.eqb_spec (code req) 0x83); [congruence|reflexivity]. Qed.
Definition log_inv (ex : list (list N * list N)) (R : Responder) : Prop :=
  match rsp_state R with
  | Some (RspChallenge s) => t_get (rsp_transcript R) = log_of (negotiated_sig_len (RspChallenge s)) ex
  | Some _ => forall ss, t_get (rsp_transcript R) = log_of ss ex
  | None => False
  end.
Lemma served_log slots rnd req st log out st' log' : served slots rnd req st log out st' log' ->
  match st' with
  | RspChallenge s => log' = log_one (negotiated_sig_len (RspChallenge s)) log (req, out) /\
                      (match st with RspChallenge s0 => s0 = s | _ => True end)
  | _ => match st with RspChallenge _ => code req = 0x84%N | _ => True end /\ forall ss, log' = log_one ss log (req, out)
  end.
Proof.
  intros S. destruct S as [st log NE (r & ->) | s log ct flags own out (r & ->) OB NM FN ->
    | s log body na al es fs out (r & ->) NF AC -> | s log mask out (r & ->) L MS CF ->
    | s log slot off len out (r & ->) L1 L2 L3 CF -> | s log slot t nonce mask filled ss sg out (r & ->) NO NTH CF HU SL LE MS -> SG LS].
  - split; [destruct st; reflexivity|]. intros ss. reflexivity.
  - split; [exact I|]. intros ss. symmetry. apply nonchal_log; discriminate.
  - split; [exact I|]. intros ss. symmetry. apply nonchal_log; discriminate.
  - split; [exact I|]. intros ss. symmetry. apply nonchal_log; discriminate.
  - split; [|exact I]. symmetry. apply nonchal_log; discriminate.
  - split; [|reflexivity]. unfold log_one, negotiated_sig_len. rewrite SL.
    set (u := unsigned_auth _ _ _ _ _). cbn [code nth app]. rewrite app_length, LS, Nat.add_sub, firstn_app_exact by reflexivity.
    reflexivity.
Qed.
Lemma session_log slots ex R : setting slots -> session slots ex R -> log_inv ex R.
Proof.
  intros HS H. induction H as [|R HR|ex R rnd req rsp out rsp' R' H IH HB RK HH].
  - intros ss. reflexivity.
  - intros ss. unfold responder_reset. cbn [rsp_transcript]. destruct (reached_ok _ _ HR) as [_ W].
    destruct (t_clear_spec _ W) as (_ & -> & _). reflexivity.
  - destruct (step_sound slots R rnd req rsp out rsp' R' HS (session_reached _ _ _ H) HB RK HH)
      as (st & st' & log' & E1 & E2 & E3 & SV & _).
    pose proof (served_log _ _ _ _ _ _ _ _ SV) as SL. unfold log_inv in *. rewrite E1 in IH. rewrite E2.
    assert (CC : code req = 0x84%N -> forall ss a b, log_one ss a (req, out) = log_one ss b (req, out)).
    { intros E4 ss a b. unfold log_one. rewrite E4. reflexivity. }
    destruct st'; rewrite E3.
    all: try (destruct SL as [S1 S2]; intros ss; rewrite log_of_snoc, (S2 ss); destruct st; rewrite ?(IH ss); auto).
    destruct SL as [S1 S2]. rewrite log_of_snoc, S1. destruct st; rewrite ?(IH (negotiated_sig_len (RspChallenge s))); auto.
    subst s0. now rewrite IH.
Qed.
Theorem C27_transcript_is_log slots ex R st : setting slots -> session slots ex R -> rsp_state R = Some st ->
  t_get (rsp_transcript R) = log_of (negotiated_sig_len st) ex.
Proof.
  intros HS H E1. pose proof (session_log _ _ _ HS H) as L. unfold log_inv in L. rewrite E1 in L. destruct st; auto.
Qed.

(** * C33 *)
Definition rsim (R1 R2 : Responder) : Prop :=
  rsp_slots R1 = rsp_slots R2 /\ rsp_state R1 = rsp_state R2 /\ t_wf (rsp_transcript R1) /\ t_wf (rsp_transcript R2) /\
  t_get (rsp_transcript R1) = t_get (rsp_transcript R2).
Lemma rsim_handle R1 R2 rnd req rsp : rsim R1 R2 ->
  fst (responder_handle_msg R1 rnd req rsp) = fst (responder_handle_msg R2 rnd req rsp) /\
  rsim (snd (responder_handle_msg R1 rnd req rsp)) (snd (responder_handle_msg R2 rnd req rsp)).
Proof.
  intros (E1 & E2 & W1 & W2 & G). unfold responder_handle_msg. rewrite E2.
  destruct (rsp_state R2) as [st|] eqn:ES.
  2: { split; [reflexivity|]. cbn [snd]. split; [exact E1|]. split; [congruence|auto]. }
  rewrite E1. pose proof (hsim_dispatch st (rsp_slots R2) rnd req (mkCtx rsp (rsp_transcript R1)) (mkCtx rsp (rsp_transcript R2))) as HS.
  destruct HS as (F & (S1 & S2 & S3 & S4) & _); [repeat split; auto; try apply W1; apply W2|].
  destruct (rsp_dispatch st _ _ _ (mkCtx rsp (rsp_transcript R1))) as [r1 c1], (rsp_dispatch st _ _ _ (mkCtx rsp (rsp_transcript R2))) as [r2 c2].
  cbn [fst snd] in *. subst r2. rewrite <- S1. destruct (rsp_finish r1 (c_rsp c1)) as [[a b] st']. split; [reflexivity|].
  split; [reflexivity|]. split; [reflexivity|]. auto.
Qed.
Lemma rsim_calls calls : forall R1 R2, rsim R1 R2 ->
  observed R1 calls = observed R2 calls /\ rsim (after R1 calls) (after R2 calls).
Proof.
  induction calls as [|[rnd req rsp|] r IH]; intros R1 R2 S.
  - auto.
  - simpl. destruct (rsim_handle R1 R2 rnd req rsp S) as [F S'].
    destruct (responder_handle_msg R1 rnd req rsp) as [[a b] R1'], (responder_handle_msg R2 rnd req rsp) as [[a2 b2] R2'].
    cbn [fst snd] in *. injection F as -> ->. destruct (IH _ _ S') as [-> ?]. auto.
  - simpl. apply IH. destruct S as (E1 & E2 & W1 & W2 & G). destruct (t_clear_spec _ W1) as (A1 & A2 & _).
    destruct (t_clear_spec _ W2) as (B1 & B2 & _). split; [exact E1|]. split; [reflexivity|]. unfold responder_reset; cbn [rsp_transcript]. rewrite A2, B2. auto.
Qed.
Theorem C33_reset_is_new slots R calls : reached slots R ->
  observed (responder_reset R) calls = observed (responder_new slots) calls /\
  rsp_state (after (responder_reset R) calls) = rsp_state (after (responder_new slots) calls) /\
  rsp_slots (after (responder_reset R) calls) = rsp_slots (after (responder_new slots) calls) /\
  t_get (rsp_transcript (after (responder_reset R) calls)) = t_get (rsp_transcript (after (responder_new slots) calls)).
Proof.
  intros HR. destruct (reached_ok _ _ HR) as [ES W]. destruct (t_clear_spec _ W) as (A1 & A2 & _).
  assert (S : rsim (responder_reset R) (responder_new slots)).
  { split; [exact ES|]. split; [reflexivity|]. split; [exact A1|]. split; [apply t_new_wf|]. unfold responder_reset; cbn [rsp_transcript]. now rewrite A2. }
  destruct (rsim_calls calls _ _ S) as [O (S1 & S2 & _ & _ & S3)]. auto.
Qed.

(** * C50 *)
Inductive steps (slots : list (option FilledSlot)) (R : Responder) : list (list N * list N) -> Responder -> Prop :=
| steps_nil : steps slots R [] R
| steps_snoc ex R1 rnd req rsp out rsp' R2 : steps slots R ex R1 -> bytes req -> rnd_ok rnd ->
    responder_handle_msg R1 rnd req rsp = (Replied out (Ok tt), rsp', R2) -> steps slots R (ex ++ [(req, out)]) R2.
Lemma session_split slots ex2 : forall ex1 R, session slots (ex1 ++ ex2) R ->
  exists R1, session slots ex1 R1 /\ steps slots R1 ex2 R.
Proof.
  induction ex2 as [|x ex2 IH] using rev_ind; intros ex1 R H.
  - rewrite app_nil_r in H. exists R. split; [auto|constructor].
  - rewrite app_assoc in H. apply session_inv in H as (R0 & rnd & rsp & rsp' & H & HB & RK & HH).
    destruct (IH _ _ H) as (R1 & A & B). exists R1. split; [auto|]. destruct x as [req out]. econstructor; eauto.
Qed.
(** The CHALLENGE served last was answered with a signature over the log of the
    whole session since GET_VERSION, itself included. *)
Definition last_signature_covers (slots : list (option FilledSlot)) (ex : list (list N * list N)) (s : RspIdState) (data signature : list N) : Prop :=
  exists ex0 req u filled r, ex = ex0 ++ [(req, u ++ signature)] /\ In (Some filled) slots /\
    data = log_of (length signature) ex0 ++ req ++ u /\
    fs_signer filled r (sha (al_base_hash (ri_algorithms s)) data) = Ok signature.
Lemma challenge_step slots R rnd req rsp out rsp' R' ex : setting slots -> session slots ex R -> bytes req -> rnd_ok rnd ->
  responder_handle_msg R rnd req rsp = (Replied out (Ok tt), rsp', R') -> code req = 0x83%N ->
  exists s sg, rsp_state R = Some (RspChallenge s) /\ rsp_state R' = Some (RspChallenge s) /\
    length sg = negotiated_sig_len (RspChallenge s) /\ 
    last_signature_covers slots (ex ++ [(req, out)]) s (log_of (length sg) (ex ++ [(req, out)])) sg.
Proof.
  intros HS H HB RK HH EC. pose proof (session_log _ _ _ HS H) as LI.
  destruct (step_sound slots R rnd req rsp out rsp' R' HS (session_reached _ _ _ H) HB RK HH)
      as (st & st' & log' & E1 & E2 & E3 & SV & _).
  unfold log_inv in LI. rewrite E1 in LI. remember (t_get (rsp_transcript R)) as log0 eqn:EL.
  destruct SV as [st log NE (r & ->) | s log ct flags own out (r & ->) OB NM FN ->
    | s log body na al es fs out (r & ->) NF AC -> | s log mask out (r & ->) L MS CF ->
    | s log slot off len out (r & ->) L1 L2 L3 CF -> | s log slot t nonce mask filled ss sg out SW NO NTH CF HU SL LE MS EO SG LS];
  try discriminate EC.
  exists s, sg. assert (LN : length sg = negotiated_sig_len (RspChallenge s)) by (cbn [negotiated_sig_len]; rewrite SL; exact LS).
  split; [auto|]. split; [auto|]. split; [auto|].
  exists ex, req, out, filled, (rnd_sign rnd). split; [reflexivity|]. split; [eapply nth_error_In; eauto|].
  rewrite log_of_snoc. unfold log_one. rewrite EC. cbn [N.eqb Pos.eqb].
  rewrite app_length, Nat.add_sub, firstn_app_exact by reflexivity. split; [reflexivity|].
  rewrite LN, <- LI. exact SG.
Qed.
Theorem C50_signature_covers_history slots ex req out R : setting slots -> session slots (ex ++ [(req, out)]) R -> code req = 0x83%N ->
  exists s sg, rsp_state R = Some (RspChallenge s) /\ length sg = negotiated_sig_len (RspChallenge s) /\
    last_signature_covers slots (ex ++ [(req, out)]) s (log_of (length sg) (ex ++ [(req, out)])) sg.
Proof.
  intros HS H EC. apply session_inv in H as (R0 & rnd & rsp & rsp' & H & HB & RK & HH). cbn [fst snd] in *.
  destruct (challenge_step slots R0 rnd req rsp out rsp' R ex HS H HB RK HH EC) as (s & sg & _ & A & B & C). eauto.
Qed.
Lemma steps_session slots R ex2 R' : steps slots R ex2 R' -> forall ex1, session slots ex1 R -> session slots (ex1 ++ ex2) R'.
Proof.
  induction 1 as [|ex R1 rnd req rsp out rsp' R2 H IH HB RK HH]; intros ex1 S.
  - now rewrite app_nil_r.
  - rewrite app_assoc. econstructor; eauto.
Qed.
Lemma steps_challenge slots R ex2 R' s : setting slots -> reached slots R -> rsp_state R = Some (RspChallenge s) -> steps slots R ex2 R' ->
  Forall (fun x => code (fst x) <> 0x84%N) ex2 -> reached slots R' /\ rsp_state R' = Some (RspChallenge s).
Proof.
  intros HS HR ES H. induction H as [|ex R1 rnd req rsp out rsp' R2 H IH HB RK HH]; intros F; [auto|].
  apply Forall_app in F as [F1 F2]. destruct (IH F1) as [A1 A2].
  destruct (step_sound slots R1 rnd req rsp out rsp' R2 HS A1 HB RK HH) as (st & st' & log' & E1 & E2 & E3 & SV & _).
  split; [eapply reached_handle; eauto|]. rewrite A2 in E1. injection E1 as <-.
  destruct (served_code _ _ _ _ _ _ _ _ SV) as (AC & _). inversion F2 as [|? ? F3 _]; subst. cbn [fst] in F3.
  inversion SV; subst; auto. match goal with SW : starts_with get_version_bytes req |- _ => destruct SW as (? & ->) end. destruct F3. reflexivity.
Qed.
Lemma log_of_extends ss ex2 : forall ex1, Forall (fun x => code (fst x) <> 0x84%N) ex2 -> Forall (fun x => fst x <> []) ex2 ->
  exists more, log_of ss (ex1 ++ ex2) = log_of ss ex1 ++ more /\ (ex2 <> [] -> more <> []).
Proof.
  induction ex2 as [|[req out] ex2 IH] using rev_ind; intros ex1 F1 F2.
  - exists []. rewrite !app_nil_r. split; [auto|congruence].
  - apply Forall_app in F1 as [F1 F3]. apply Forall_app in F2 as [F2 F4]. destruct (IH ex1 F1 F2) as (m & E1 & _).
    inversion F3 as [|? ? F5 _]; subst. inversion F4 as [|? ? F6 _]; subst. cbn [fst] in *.
    rewrite app_assoc, log_of_snoc, E1. unfold log_one. destruct (N.eqb_spec (code req) 0x84) as [X|_]; [congruence|].
    destruct req as [|a req]; [congruence|].
    destruct (code (a :: req) =? 0x83)%N; rewrite <- app_assoc; (eexists; split; [reflexivity|]); intros _ X;
      apply app_eq_nil in X as [_ X]; discriminate.
Qed.
(** Two challenges of one session, with no GET_VERSION between them: both were
    signed over logs, and the second log properly extends the first. *)
Theorem C50_challenges_differ slots ex1 req1 out1 ex2 req2 out2 R : setting slots ->
  session slots (ex1 ++ [(req1, out1)] ++ ex2 ++ [(req2, out2)]) R ->
  code req1 = 0x83%N -> code req2 = 0x83%N -> Forall (fun x => code (fst x) <> 0x84%N) ex2 ->
  exists s sg1 sg2 data1 more,
    last_signature_covers slots (ex1 ++ [(req1, out1)]) s data1 sg1 /\
    last_signature_covers slots (ex1 ++ [(req1, out1)] ++ ex2 ++ [(req2, out2)]) s (data1 ++ more) sg2 /\ more <> [].
Proof.
  intros HS H C1 C2 F. pose proof H as H0. rewrite app_assoc in H. apply session_split in H as (R1 & S1 & S2).
  destruct (C50_signature_covers_history _ _ _ _ _ HS S1 C1) as (s & sg1 & E1 & L1 & V1).
  destruct (C50_signature_covers_history slots (ex1 ++ [(req1, out1)] ++ ex2) req2 out2 R HS) as (s' & sg2 & E2 & L2 & V2).
  { rewrite <- !app_assoc. exact H0. } { auto. }
  assert (F' : Forall (fun x => code (fst x) <> 0x84%N) (ex2 ++ [(req2, out2)])).
  { apply Forall_app. split; [auto|]. constructor; [|constructor]. cbn [fst]. rewrite C2. discriminate. }
  destruct (steps_challenge slots R1 _ R s HS (session_reached _ _ _ S1) E1 S2 F') as [_ E3].
  rewrite E2 in E3. injection E3 as ->. rewrite <- !app_assoc in V2. cbn [app] in V2.
  destruct (log_of_extends (length sg2) (ex2 ++ [(req2, out2)]) (ex1 ++ [(req1, out1)]) F') as (more & EM & NM).
  { apply Forall_impl with (P := fun x => code (fst x) <> 0%N).
    - intros [[|] ?]; cbn; congruence.
    - clear - C2 HS S2 S1. assert (X : Forall (fun x => (code (snd x) + 0x80 = code (fst x))%N) (ex1 ++ [(req1, out1)] ++ ex2 ++ [(req2, out2)])).
      { rewrite app_assoc. apply (steps_session _ _ _ _ S2) in S1. destruct (C25_protocol_order _ _ _ HS S1) as (? & _ & _ & _ & FA). exact FA. }
      apply Forall_app in X as [_ X]. apply Forall_app in X as [_ X]. eapply Forall_impl; [|exact X]. intros [q o]; cbn. lia. }
  rewrite <- app_assoc in EM. exists s, sg1, sg2, (log_of (length sg1) (ex1 ++ [(req1, out1)])), more.
  split; [exact V1|]. replace (length sg1) with (length sg2) by congruence. rewrite <- EM.
  split; [exact V2|]. apply NM. destruct ex2; discriminate.
Qed.
End PropRspState.

(** * Concrete cases meeting the hypotheses *)
#[local] Existing Instance sample_cfg.
#[local] Existing Instance sample_crypto.
Lemma sample_setting : setting sample_slots.
Proof.
  split; [reflexivity|]. split; [apply Nat.leb_le; reflexivity|]. intros h data [-> | [-> | ->]]; cbn [sha sample_crypto]; unfold toy_hash.
  all: split; [rewrite repeat_length; reflexivity|apply Forall_forall; intros x HX; apply repeat_spec in HX; subst x; apply N.mod_lt; discriminate].
Qed.
Lemma sample_rnd_ok k : (k < 256)%N -> rnd_ok (sample_rnd k).
Proof.
  intros L. split; [reflexivity|]. apply Forall_forall. intros x HX. apply repeat_spec in HX. subst x. exact L.
Qed.
Lemma serve_session {slots} reqs : forall k ex R l R', (k + N.of_nat (length reqs) < 256)%N -> Forall bytes reqs -> session slots ex R ->
  serve k reqs R = Some (l, R') -> session slots (ex ++ l) R'.
Proof.
  induction reqs as [|req reqs IH]; intros k ex R l R' L F S H; cbn [serve] in H.
  - injection H as <- <-. now rewrite app_nil_r.
  - inversion F as [|? ? F1 F2]; subst. destruct (responder_handle_msg R (sample_rnd k) req big_buf) as [[[out [[]|e|p]|p] b] R1] eqn:EH; try discriminate.
    destruct (serve (k + 1) reqs R1) as [[l2 R2]|] eqn:ES; [|discriminate]. injection H as <- <-.
    change ((req, out) :: l2) with ([(req, out)] ++ l2). rewrite app_assoc. eapply IH; [| |eapply session_step; eauto|exact ES]; auto.
    + cbn [length] in L. lia.
    + apply sample_rnd_ok. lia.
Qed.
Lemma served_session reqs : (1 + N.of_nat (length reqs) < 256)%N -> Forall bytes reqs -> serve 1 reqs sample_r0 <> None ->
  session sample_slots (served_ex reqs) (served_R reqs).
Proof.
  intros L F NN. unfold served_ex, served_R. destruct (serve 1 reqs sample_r0) as [[l R]|] eqn:E1; [|congruence].
  apply (serve_session reqs 1 [] sample_r0 l R L F); [constructor|exact E1].
Qed.
Lemma bytes_all l : forallb (forallb (fun b => b <? 256)%N) l = true -> Forall bytes l.
Proof.
  intros H. apply Forall_forall. intros x HX. rewrite forallb_forall in H. apply bytes_check, H, HX.
Qed.
(** The responder after the whole protocol, with a second challenge. *)
Definition sample_twice : list (list N) := sample_requests ++ [sample_request 5].
Lemma sample_twice_session : session sample_slots (served_ex sample_twice) (served_R sample_twice).
Proof. apply served_session; [reflexivity|apply bytes_all; reflexivity|vm_compute; discriminate]. Qed.

Example C24_example : setting sample_slots /\ reached sample_slots (served_R sample_twice) /\
  bytes (sample_request 0) /\ rnd_ok (sample_rnd 9) /\ starts_with get_version_bytes (sample_request 0) /\
  length version_reply <= length big_buf /\ length (sample_request 0) + length version_reply <= TRANSCRIPT_SIZE /\
  exists s, rsp_state (served_R sample_twice) = Some (RspChallenge s).
Proof.
  refine (conj sample_setting (conj (session_reached _ _ _ sample_twice_session) (conj _ (conj (sample_rnd_ok 9 _) (conj _ (conj _ (conj _ _))))))).
  - apply bytes_check. reflexivity.
  - reflexivity.
  - exists []. reflexivity.
  - apply Nat.leb_le. reflexivity.
  - apply Nat.leb_le. reflexivity.
  - vm_compute. eauto.
Qed.
Example C25_example : session sample_slots (served_ex sample_twice) (served_R sample_twice) /\
  map (fun x => code (fst x)) (served_ex sample_twice) = [0x84; 0xE1; 0xE3; 0x81; 0x82; 0x83; 0x83]%N.
Proof. split; [exact sample_twice_session|]. vm_compute. reflexivity. Qed.
(** A certificate request right after the version exchange is refused. *)
Example C25_reject_example : exists s, rsp_state (served_R [sample_request 0]) = Some (RspCapabilities s) /\
  2 < length (sample_request 4) /\
  ~ In (code (sample_request 4), nth 0 (sample_request 4) 0%N) (accepts (RspCapabilities s)) /\
  fst (responder_handle_msg (served_R [sample_request 0]) (sample_rnd 1) (sample_request 4) [1; 2; 3; 4; 5]%N)
  = (Replied [0x12; 0x7F; 0x04; 0]%N (Err (RspUnexpectedMsgCode 0xE1 0x11)), [0x12; 0x7F; 0x04; 0; 5]%N).
Proof.
  eexists. split; [vm_compute; reflexivity|]. split; [apply Nat.ltb_lt; reflexivity|].
  split; [vm_compute; intuition discriminate|]. vm_compute. reflexivity.
Qed.
Example C27_example : exists s, rsp_state (served_R sample_twice) = Some (RspChallenge s) /\
  negotiated_sig_len (RspChallenge s) = 64 /\ length (log_of 64 (served_ex sample_twice)) = 557.
Proof. eexists. split; [vm_compute; reflexivity|]. split; vm_compute; reflexivity. Qed.
Example C33_example : reached sample_slots (served_R sample_twice) /\
  length (observed (responder_reset (served_R sample_twice)) [CallHandle (sample_rnd 1) (sample_request 0) big_buf]) = 1.
Proof. split; [exact (session_reached _ _ _ sample_twice_session)|]. vm_compute. reflexivity. Qed.
Example C50_example : exists ex1 req1 out1 req2 out2,
  served_ex sample_twice = ex1 ++ [(req1, out1)] ++ [] ++ [(req2, out2)] /\ code req1 = 0x83%N /\ code req2 = 0x83%N.
Proof.
  exists (firstn 5 (served_ex sample_twice)), (sample_request 5), (snd (nth 5 (served_ex sample_twice) ([], []))),
    (sample_request 5), (snd (nth 6 (served_ex sample_twice) ([], []))).
  split; [vm_compute; reflexivity|]. split; reflexivity.
Qed.
