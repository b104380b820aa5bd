(** A requester call against its specification: [requested] is exactly what
    next_request does, [accepted] exactly what a successful handle_msg does. *)
From Verif Require Import Base BaseLemmas Config Encoding MsgCommon MsgVersion MsgCapabilities MsgAlgorithms MsgDigest
     MsgCertificates MsgChallenge MsgError Transcript Crypto Responder Requester SpecWire SpecMsgs SpecResponder SpecRequester
     FlagLemmas PropTools PropTranscript PropVersionCaps PropAlg PropCerts PropChal PropGeneric PropTables PropDer RspParts RspStep.

#[local] Opaque chain_bytes.

Section ReqNext.
Context {cfg : Config} {cr : Crypto}.

(** * next_request *)
(** Write [out], log it, possibly changing the state before or after. *)
Definition q_outcome (c : QCtx) (run : res RequesterError (list N) * QCtx) (out : list N) (st' : ReqStates) (base : list N) : Prop :=
  (length out <= length (q_buf c) -> length (base ++ out) <= TRANSCRIPT_SIZE ->
   exists c', run = (Ok out, c') /\ q_buf c' = out ++ skipn (length out) (q_buf c) /\ t_wf (q_tr c') /\
     t_get (q_tr c') = base ++ out /\ q_state c' = st') /\
  (length (q_buf c) < length out \/ TRANSCRIPT_SIZE < length (base ++ out) ->
   exists c', run = (Err ReqBufferFull, c') /\ t_wf (q_tr c') /\
     (t_get (q_tr c') = t_get (q_tr c) \/ TRANSCRIPT_SIZE < length (base ++ out) /\ t_get (q_tr c') = base) /\
     length (q_buf c') = length (q_buf c) /\ (q_state c' = q_state c \/ q_state c' = st')).

Lemma q_extend_spec bs c : t_wf (q_tr c) ->
  (length (t_get (q_tr c) ++ bs) <= TRANSCRIPT_SIZE ->
   exists t', q_extend bs c = (Ok tt, mkQCtx (q_buf c) t' (q_state c)) /\ t_wf t' /\ t_get t' = t_get (q_tr c) ++ bs) /\
  (TRANSCRIPT_SIZE < length (t_get (q_tr c) ++ bs) -> q_extend bs c = (Err ReqBufferFull, c)).
Proof.
  intros W. rewrite app_length, t_get_length by auto. destruct (t_extend_spec (q_tr c) bs W) as [H1 H2].
  unfold q_extend, map_err. split; intros L.
  - destruct (H1 L) as (t' & -> & W' & G & _). eauto.
  - rewrite (H2 L). destruct c; reflexivity.
Qed.
Lemma q_write_spec wr F out c : writes_exactly wr F out ->
  (length out <= length (q_buf c) -> q_write req_of_full wr c =
     (Ok (length out), mkQCtx (out ++ skipn (length out) (q_buf c)) (q_tr c) (q_state c))) /\
  (length (q_buf c) < length out -> exists buf, length buf = length (q_buf c) /\
     q_write req_of_full wr c = (Err ReqBufferFull, mkQCtx buf (q_tr c) (q_state c))).
Proof.
  intros W. destruct (W (q_buf c)) as [W1 W2]. unfold q_write. split; intros L.
  - now rewrite (W1 L).
  - destruct (W2 L) as (e & k & _ & K & ->). eexists. split; [|reflexivity].
    rewrite app_length, firstn_length, skipn_length. lia.
Qed.
Lemma q_prefix_run n c : n <= length (q_buf c) -> q_prefix n c = (Ok (firstn n (q_buf c)), c).
Proof. intros H. unfold q_prefix. destruct (Nat.leb_spec n (length (q_buf c))); [auto|lia]. Qed.

(** The common tail: write, [mid] (state or clear), prefix, extend, [fin]. *)
Lemma q_tail wr F out (mid fin : Q unit) st1 st2 t1 c :
  writes_exactly wr F out ->
  (forall buf, mid (mkQCtx buf (q_tr c) (q_state c)) = (Ok tt, mkQCtx buf t1 st1)) ->
  (forall buf t, fin (mkQCtx buf t st1) = (Ok tt, mkQCtx buf t st2)) ->
  t_wf (q_tr c) -> t_wf t1 -> st1 = q_state c \/ st1 = st2 ->
  q_outcome c ((size <- q_write req_of_full wr ;; mid ;;; o <- q_prefix size ;; q_extend o ;;; fin ;;; ret o) c) out st2 (t_get t1).
Proof.
  intros W HM HF W0 W1 HS. destruct (q_write_spec wr F out c W) as [A1 A2].
  destruct (Nat.le_gt_cases (length out) (length (q_buf c))) as [L|L].
  - rewrite (bind_run _ _ _ _ _ (A1 L)), (bind_run _ _ _ _ _ (HM _)).
    rewrite (bind_run _ _ _ _ _ (q_prefix_run (length out) (mkQCtx (out ++ skipn (length out) (q_buf c)) t1 st1)
              ltac:(cbn [q_buf]; rewrite app_length; lia))).
    cbn [q_buf]. rewrite firstn_app_exact by reflexivity.
    destruct (q_extend_spec out (mkQCtx (out ++ skipn (length out) (q_buf c)) t1 st1) W1) as [B1 B2].
    cbn [q_tr q_buf q_state] in B1, B2. split.
    + intros _ L2. destruct (B1 L2) as (t2 & X & W2 & G2). rewrite (bind_run _ _ _ _ _ X), (bind_run _ _ _ _ _ (HF _ _)).
      eexists. split; [reflexivity|]. cbn [q_buf q_tr q_state]. auto.
    + intros [L2|L2]; [lia|]. unfold bind at 1. rewrite (B2 L2). eexists. split; [reflexivity|]. cbn [q_buf q_tr q_state].
      split; [auto|]. split; [right; auto|]. split; [rewrite app_length, skipn_length; lia|auto].
  - split; [intros L2; lia|]. intros _. destruct (A2 L) as (buf & LB & X). unfold bind at 1. rewrite X.
    eexists. split; [reflexivity|]. cbn [q_buf q_tr q_state]. auto.
Qed.

Lemma req_flags_named m : config_to_get_capabilities_msg = Ok m ->
  gc_ct_exponent m = 12%N /\ (forall name, In name CAPABILITIES -> ReqFlags_from_str name <> None) /\
  flags_named ReqFlags_from_str CAPABILITIES (gc_flags m).
Proof.
  unfold config_to_get_capabilities_msg. destruct (flags_of_strings _ _ _ _) as [f|e|p] eqn:E1; try discriminate. intros [= <-].
  split; [reflexivity|]. simpl gc_flags.
  assert (HP : forall l fl f, flags_of_strings ReqFlags_from_str ReqParseCapability l fl = Ok f ->
             forall s, In s l -> exists v, ReqFlags_from_str s = Some v).
  { clear. induction l as [|x l IH]; simpl; [tauto|]. intros fl f. destruct (ReqFlags_from_str x) eqn:E; [|discriminate].
    intros H s [<-|Hs]; [eauto|eapply IH; eauto]. }
  pose proof (HP _ _ _ E1) as HA. destruct (flags_ok ReqFlags_from_str ReqParseCapability CAPABILITIES 0 HA) as (f' & F1 & F2).
  split. { intros s Hs. destruct (HA s Hs) as (v & ->). discriminate. }
  rewrite F1 in E1. injection E1 as <-. intros i. rewrite F2, N.bits_0. intuition discriminate.
Qed.
Lemma flags_unique parse names a b : flags_named parse names a -> flags_named parse names b -> a = b.
Proof.
  intros H1 H2. apply N.bits_inj. intros i. specialize (H1 i). specialize (H2 i).
  destruct (N.testbit a i), (N.testbit b i); intuition congruence.
Qed.
Lemma req_flags_run own : (forall name, In name CAPABILITIES -> ReqFlags_from_str name <> None) ->
  flags_named ReqFlags_from_str CAPABILITIES own -> config_to_get_capabilities_msg = Ok (mkGetCapabilities 12 own).
Proof.
  intros HA FN. unfold config_to_get_capabilities_msg.
  destruct (flags_ok ReqFlags_from_str ReqParseCapability CAPABILITIES 0) as (f & F1 & F2).
  { intros s Hs. specialize (HA s Hs). destruct (ReqFlags_from_str s); [eauto|congruence]. }
  rewrite F1. cbn [rmap]. do 2 f_equal. eapply flags_unique; [|exact FN]. intros i. rewrite F2, N.bits_0. intuition discriminate.
Qed.
Lemma offer_named m : config_to_negotiate_algorithms_msg = Ok m -> own_offer m.
Proof.
  unfold config_to_negotiate_algorithms_msg. destruct (flags_of_strings _ _ _ _) as [f|e|p] eqn:E1; try discriminate. intros [= <-].
  assert (HP : forall l fl f, flags_of_strings BaseAsymAlgo_from_str ReqParseBaseAsymAlgo l fl = Ok f ->
             forall s, In s l -> exists v, BaseAsymAlgo_from_str s = Some v).
  { clear. induction l as [|x l IH]; simpl; [tauto|]. intros fl f. destruct (BaseAsymAlgo_from_str x) eqn:E; [|discriminate].
    intros H s [<-|Hs]; [eauto|eapply IH; eauto]. }
  pose proof (HP _ _ _ E1) as HA. destruct (flags_ok BaseAsymAlgo_from_str ReqParseBaseAsymAlgo SIGNING_ALGOS 0 HA) as (f' & F1 & F2).
  rewrite F1 in E1. injection E1 as <-.
  split; [reflexivity|]. split. { intros s Hs. destruct (HA s Hs) as (v & ->). discriminate. }
  split. { cbn [na_base_asym_algo]. intros i. rewrite F2, N.bits_0. intuition discriminate. }
  split; [cbn [na_base_hash_algo]; unfold supported_algorithms; destruct provider; reflexivity|].
  split; reflexivity.
Qed.
Lemma offer_run na : own_offer na -> config_to_negotiate_algorithms_msg = Ok na.
Proof.
  intros (O1 & O2 & O3 & O4 & O5 & O6). unfold config_to_negotiate_algorithms_msg.
  destruct (flags_ok BaseAsymAlgo_from_str ReqParseBaseAsymAlgo SIGNING_ALGOS 0) as (f & F1 & F2).
  { intros s Hs. specialize (O2 s Hs). destruct (BaseAsymAlgo_from_str s); [eauto|congruence]. }
  rewrite F1. cbn [rmap]. destruct na as [ms ba bh nr rq]. cbn [na_measurement_spec na_base_asym_algo na_base_hash_algo na_num_requests na_requests] in *.
  subst. f_equal. replace f with ba. { unfold supported_algorithms. destruct provider; reflexivity. }
  eapply flags_unique; [exact O3|]. intros i. rewrite F2, N.bits_0. intuition discriminate.
Qed.
Lemma own_offer_unique a b : own_offer a -> own_offer b -> a = b.
Proof. intros HA HB. apply offer_run in HA. apply offer_run in HB. congruence. Qed.
Lemma offer_writes na : own_offer na ->
  writes_exactly (write_msg NegotiateAlgorithms_id (fun e => e) (negotiate_algorithms_write_body na)) (fun e => e = BufferFull)
    ([0x11; 0xE3]%N ++ negotiate_layout 4 48 1 (na_base_asym_algo na) (na_base_hash_algo na) [] [] (no_ext own_structs)).
Proof.
  intros (O1 & O2 & O3 & O4 & O5 & O6).
  pose proof (proj1 (C09_negotiate_write na own_structs [] O5 ltac:(rewrite O6; reflexivity))) as W.
  unfold negotiate_enc in W. rewrite O1 in W. exact W.
Qed.

(** The messages of [requested], for each state. *)
Lemma write_req_run st fresh c out st' log' : t_wf (q_tr c) -> q_state c = st ->
  requested fresh st (t_get (q_tr c)) out st' log' ->
  exists base, log' = base ++ out /\ q_outcome c (write_req st fresh c) out st' base /\
    (st = ReqVersion /\ base = [] \/ base = t_get (q_tr c)).
Proof.
  intros W ES HR. remember (t_get (q_tr c)) as log eqn:EL. destruct HR as [log|s log own out H1 H2 ->|s log na out H1 ->|s log out H1 ->|s log out H1 H2 ->|s log out ->];
    cbn [write_req].
  - exists []. split; [reflexivity|]. split; [|left; auto].
    destruct (t_clear_spec (q_tr c) W) as (W1 & G1 & _). rewrite <- G1.
    eapply (q_tail _ _ _ q_clear (ret tt) (q_state c)).
    + exact C07_get_version_write.
    + reflexivity.
    + intros. now rewrite ES.
    + auto.
    + auto.
    + auto.
  - eexists. split; [reflexivity|]. split; [|right; reflexivity]. unfold cap_write_msg.
    rewrite (bind_run _ _ _ _ _ (lift_run _ _ _ (req_flags_run own H1 H2))). rewrite EL.
    eapply (q_tail _ _ _ (ret tt) _ (q_state c)).
    + exact (C08_get_capabilities_write (mkGetCapabilities 12 own)).
    + reflexivity.
    + reflexivity.
    + auto.
    + auto.
    + auto.
  - eexists. split; [reflexivity|]. split; [|right; reflexivity]. unfold alg_write_msg.
    rewrite (bind_run _ _ _ _ _ (lift_run _ _ _ (offer_run na H1))). rewrite EL.
    match goal with |- q_outcome _ _ _ ?s _ => eapply (q_tail _ _ _ (q_set s) (ret tt) s) end.
    + exact (offer_writes na H1).
    + reflexivity.
    + reflexivity.
    + auto.
    + auto.
    + auto.
  - eexists. split; [reflexivity|]. split; [|right; reflexivity]. rewrite H1, EL.
    eapply (q_tail _ _ _ (ret tt) (ret tt) (q_state c)).
    + exact C11_get_digests_write.
    + reflexivity.
    + intros. rewrite ES. reflexivity.
    + auto.
    + auto.
    + auto.
  - eexists. split; [reflexivity|]. split; [|right; reflexivity]. destruct (qi_digests s) as [d|] eqn:ED; [|congruence]. rewrite EL.
    unfold write_get_certificate_msg. change (N.to_nat 0) with 0. destruct (Nat.ltb_spec 0 NUM_SLOTS); [|lia]. cbn [negb].
    eapply (q_tail _ _ _ (ret tt) (ret tt) (q_state c)).
    + exact (C12_get_certificate_write (mkGetCertificate 0 0 (N.of_nat MAX_CERT_CHAIN_SIZE mod 65536))).
    + reflexivity.
    + intros. rewrite ES. reflexivity.
    + auto.
    + auto.
    + auto.
  - eexists. split; [reflexivity|]. split; [|right; reflexivity]. rewrite EL. unfold chal_write_msg.
    set (st' := ReqChallenge _).
    rewrite (bind_run _ _ c tt (mkQCtx (q_buf c) (q_tr c) st')) by reflexivity.
    assert (X : q_outcome (mkQCtx (q_buf c) (q_tr c) st')
       ((size <- q_write req_of_full (write_msg Challenge_id (fun e => e) (challenge_write_body (mkChallenge (qh_cert_slot s) MHNone (nonce_new fresh)))) ;;
         ret tt ;;; o <- q_prefix size ;; q_extend o ;;; ret tt ;;; ret o) (mkQCtx (q_buf c) (q_tr c) st'))
       ([0x11; 0x83]%N ++ challenge_layout (qh_cert_slot s) MHNone (wire_nonce fresh)) st' (t_get (q_tr c))).
    { eapply (q_tail _ _ _ (ret tt) (ret tt) st').
      + exact (C14_challenge_write (mkChallenge (qh_cert_slot s) MHNone (nonce_new fresh))).
      + reflexivity.
      + reflexivity.
      + auto.
      + auto.
      + auto. }
    destruct X as [X1 X2]. cbn [q_buf q_tr q_state] in X1, X2. split.
    + exact X1.
    + intros L. destruct (X2 L) as (c' & Y1 & Y2 & Y3 & Y4 & Y5). exists c'. split; [exact Y1|].
      split; [auto|]. split; [auto|]. split; [auto|]. right. destruct Y5; auto.
Qed.

(** Either a message is specified or the call fails without effect. *)
Lemma write_req_cases st fresh c : st <> ReqError -> st <> ReqNewSession -> q_state c = st -> 
  (exists out st' log', requested fresh st (t_get (q_tr c)) out st' log') \/
  (exists e, write_req st fresh c = (Err e, c) /\ (e = ReqParseCapability \/ e = ReqParseBaseAsymAlgo)) \/
  (write_req st fresh c = (Panic PAssert, c) /\ NUM_SLOTS = 0).
Proof.
  intros H1 H2 ES. destruct st as [| |s|s|s|s|]; try congruence.
  - left. do 3 eexists. constructor.
  - destruct config_to_get_capabilities_msg as [m|e|p] eqn:EC.
    + destruct (req_flags_named m EC) as (_ & A & B). left. do 3 eexists. eapply requested_capabilities; eauto.
    + right. left. exists e. simpl. unfold cap_write_msg. rewrite EC. split; [reflexivity|]. left.
      unfold config_to_get_capabilities_msg in EC. revert EC. generalize CAPABILITIES, 0%N. clear.
      induction l as [|x l IH]; simpl; [discriminate|]. intros n. destruct (ReqFlags_from_str x); [apply IH|]. now intros [= <-].
    + exfalso. unfold config_to_get_capabilities_msg in EC. revert EC. generalize CAPABILITIES, 0%N. clear.
      induction l as [|x l IH]; simpl; [discriminate|]. intros n. destruct (ReqFlags_from_str x); [apply IH|]. discriminate.
  - destruct config_to_negotiate_algorithms_msg as [m|e|p] eqn:EC.
    + left. do 3 eexists. eapply requested_algorithms; [apply offer_named; eauto|reflexivity].
    + right. left. exists e. simpl. unfold alg_write_msg. rewrite EC. split; [reflexivity|]. right.
      unfold config_to_negotiate_algorithms_msg in EC. revert EC. generalize SIGNING_ALGOS, 0%N. clear.
      induction l as [|x l IH]; simpl; [discriminate|]. intros n. destruct (BaseAsymAlgo_from_str x); [apply IH|]. now intros [= <-].
    + exfalso. unfold config_to_negotiate_algorithms_msg in EC. revert EC. generalize SIGNING_ALGOS, 0%N. clear.
      induction l as [|x l IH]; simpl; [discriminate|]. intros n. destruct (BaseAsymAlgo_from_str x); [apply IH|]. discriminate.
  - destruct (qi_digests s) as [d|] eqn:ED.
    + destruct (Nat.eq_dec NUM_SLOTS 0) as [Z|Z].
      * right. right. simpl. rewrite ED. unfold write_get_certificate_msg. change (N.to_nat 0) with 0. rewrite Z. split; reflexivity.
      * left. do 3 eexists. eapply requested_certificate; [congruence|lia|reflexivity].
    + left. do 3 eexists. eapply requested_digests; auto.
  - left. do 3 eexists. eapply requested_challenge. reflexivity.
Qed.

Lemma next_complete R st fresh buf out st' log' : t_wf (req_transcript R) -> req_state R = Some st ->
  requested fresh st (t_get (req_transcript R)) out st' log' ->
  length out <= length buf -> length log' <= TRANSCRIPT_SIZE ->
  exists R', requester_next_request R fresh buf = (Ok out, out ++ skipn (length out) buf, R') /\
    req_root R' = req_root R /\ req_state R' = Some st' /\ t_get (req_transcript R') = log' /\ t_wf (req_transcript R').
Proof.
  intros W ES HR L1 L2. unfold requester_next_request. rewrite ES.
  assert (NS : st <> ReqNewSession) by (destruct HR; discriminate).
  destruct (write_req_run st fresh (mkQCtx buf (req_transcript R) st) out st' log' W eq_refl HR) as (base & -> & [Q1 _] & _).
  destruct (Q1 L1 L2) as (c' & X1 & X2 & X3 & X4 & X5). rewrite X1. cbn [q_buf] in X2.
  exists (mkRequester (req_root R) (q_tr c') (Some (q_state c'))). cbn [req_root req_state req_transcript].
  split; [destruct st; try congruence; rewrite X2; reflexivity|]. split; [auto|]. split; [congruence|]. auto.
Qed.
Lemma next_sound R fresh buf out buf' R' : t_wf (req_transcript R) ->
  requester_next_request R fresh buf = (Ok out, buf', R') ->
  exists st st' log', req_state R = Some st /\ requested fresh st (t_get (req_transcript R)) out st' log' /\
    length out <= length buf /\ length log' <= TRANSCRIPT_SIZE /\ buf' = out ++ skipn (length out) buf /\
    req_root R' = req_root R /\ req_state R' = Some st' /\ t_get (req_transcript R') = log' /\ t_wf (req_transcript R').
Proof.
  intros W H. unfold requester_next_request in H. destruct (req_state R) as [st|] eqn:ES; [|discriminate].
  assert (N1 : st <> ReqError). { intros ->. discriminate. }
  assert (N2 : st <> ReqNewSession). { intros ->. discriminate. }
  set (c := mkQCtx buf (req_transcript R) st) in *.
  assert (H' : (let '(r, c0) := write_req st fresh c in (r, q_buf c0, mkRequester (req_root R) (q_tr c0) (Some (q_state c0)))) = (Ok out, buf', R')).
  { destruct st; try congruence; exact H. }
  clear H. destruct (write_req_cases st fresh c N1 N2 eq_refl) as [(out0 & st' & log' & HR)|[(e & E1 & _)|[E1 _]]].
  2, 3: rewrite E1 in H'; discriminate.
  destruct (write_req_run st fresh c out0 st' log' W eq_refl HR) as (base & E2 & [Q1 Q2] & _).
  destruct (Nat.le_gt_cases (length out0) (length buf)) as [L1|L1].
  2: { destruct (Q2 (or_introl L1)) as (c' & X & _). rewrite X in H'. discriminate. }
  destruct (Nat.le_gt_cases (length (base ++ out0)) TRANSCRIPT_SIZE) as [L2|L2].
  2: { destruct (Q2 (or_intror L2)) as (c' & X & _). rewrite X in H'. discriminate. }
  destruct (Q1 L1 L2) as (c' & X1 & X2 & X3 & X4 & X5). rewrite X1 in H'. injection H' as <- <- <-.
  exists st, st', log'. cbn [req_root req_state req_transcript]. split; [reflexivity|]. split; [exact HR|]. split; [exact L1|].
  split; [rewrite E2; exact L2|]. split; [exact X2|]. split; [reflexivity|]. split; [congruence|]. split; [congruence|auto].
Qed.
(** The capabilities state changes only on success. *)
Lemma cap_error_state s c e c' : cap_write_msg s c = (Err e, c') -> q_state c' = q_state c.
Proof.
  intros H. unfold cap_write_msg in H. unfold bind at 1 in H. destruct (lift config_to_get_capabilities_msg c) as [[m|e0|p] c1] eqn:E1;
    unfold lift in E1; injection E1 as E0 <-; [|injection H as _ <-; reflexivity|discriminate].
  unfold bind at 1 in H. unfold q_write at 1 in H. destruct (write_msg _ _ _ _) as [[n|e1|p1] b1]; cbn [rmap_err] in H;
    [|injection H as _ <-; reflexivity|discriminate].
  unfold bind at 1 in H. unfold q_prefix in H. destruct (Nat.leb _ _); [|discriminate].
  unfold bind at 1 in H. unfold q_extend in H. destruct (map_err _ _ _) as [[u|e2|p2] t2]; [|injection H as _ <-; reflexivity|discriminate].
  unfold bind, q_set, ret in H. discriminate.
Qed.
Lemma next_error R fresh buf e buf' R' : t_wf (req_transcript R) ->
  requester_next_request R fresh buf = (Err e, buf', R') ->
  exists st, req_state R = Some st /\ t_wf (req_transcript R') /\ req_root R' = req_root R /\
    (st = ReqNewSession /\ e = ReqInitializationComplete /\ buf' = buf /\ R' = R \/
     st <> ReqNewSession /\ (e = ReqParseCapability \/ e = ReqParseBaseAsymAlgo) /\ buf' = buf /\ req_transcript R' = req_transcript R /\ req_state R' = Some st \/
     e = ReqBufferFull /\ length buf' = length buf /\
     exists out st' log', requested fresh st (t_get (req_transcript R)) out st' log' /\
       (length buf < length out \/ TRANSCRIPT_SIZE < length log') /\
       (req_state R' = Some st \/ req_state R' = Some st' /\ forall s, st <> ReqCapabilities s) /\
       (t_get (req_transcript R') = t_get (req_transcript R) \/
        st = ReqVersion /\ TRANSCRIPT_SIZE < 4 /\ t_get (req_transcript R') = [])).
Proof.
  intros W H. unfold requester_next_request in H. destruct (req_state R) as [st|] eqn:ES; [|discriminate].
  exists st. split; [reflexivity|].
  destruct (match st with ReqNewSession => true | _ => false end) eqn:E0.
  { destruct st; try discriminate. injection H as <- <- <-. split; [exact W|]. split; [reflexivity|]. left. auto. }
  assert (N1 : st <> ReqError). { intros ->. discriminate. }
  assert (N2 : st <> ReqNewSession). { intros ->. discriminate. }
  set (c := mkQCtx buf (req_transcript R) st) in *.
  assert (H' : (let '(r, c0) := write_req st fresh c in (r, q_buf c0, mkRequester (req_root R) (q_tr c0) (Some (q_state c0)))) = (Err e, buf', R')).
  { destruct st; try congruence; exact H. }
  clear H. destruct (write_req_cases st fresh c N1 N2 eq_refl) as [(out0 & st' & log' & HR)|[(e0 & E1 & E2)|[E1 _]]].
  3: rewrite E1 in H'; discriminate.
  2: { rewrite E1 in H'. injection H' as <- <- <-. cbn [req_root req_transcript req_state q_tr q_state q_buf c].
       split; [exact W|]. split; [reflexivity|]. right. left. auto. }
  destruct (write_req_run st fresh c out0 st' log' W eq_refl HR) as (base & E2 & [Q1 Q2] & E3).
  assert (LX : length (q_buf c) < length out0 \/ TRANSCRIPT_SIZE < length (base ++ out0)).
  { destruct (Nat.le_gt_cases (length out0) (length (q_buf c))) as [L1|L1]; [|auto].
    destruct (Nat.le_gt_cases (length (base ++ out0)) TRANSCRIPT_SIZE) as [L2|L2]; [|auto].
    destruct (Q1 L1 L2) as (c' & X1 & _). rewrite X1 in H'. discriminate. }
  destruct (Q2 LX) as (c' & X1 & X2 & X3 & X4 & X5). rewrite X1 in H'. injection H' as <- <- <-.
  cbn [req_root req_transcript req_state]. split; [exact X2|]. split; [reflexivity|]. right. right. split; [reflexivity|].
  split; [exact X4|]. exists out0, st', log'. split; [exact HR|]. split; [rewrite E2; exact LX|].
  split.
  { cbn [q_state c] in X5. destruct st as [| |s0|s0|s0|s0|]; try (destruct X5 as [->| ->]; [left; reflexivity|right; split; [reflexivity|discriminate]]).
    left. cbn [write_req] in X1. now rewrite (cap_error_state _ _ _ _ X1). }
  destruct X3 as [X3|[L3 X3]]; [left; exact X3|].
  destruct E3 as [[-> ->]| ->]; [|left; exact X3]. right. split; [reflexivity|]. split; [|exact X3].
  inversion HR; subst. simpl app in L3. simpl length in L3. lia.
Qed.
End ReqNext.
