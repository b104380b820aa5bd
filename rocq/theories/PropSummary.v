(** C77: the measurement summary of CHALLENGE_AUTH.  The type requested in
    CHALLENGE is ignored: a field of zeros is always sent, and always expected. *)
From Verif Require Import Base BaseLemmas Config Encoding MsgCommon MsgVersion MsgCapabilities MsgAlgorithms MsgDigest
     MsgCertificates MsgChallenge MsgError Transcript Crypto Responder Requester SpecWire SpecMsgs SpecResponder SpecRequester
     PropTools PropTranscript RspParts RspStep PropResponder PropRspState ReqStep ReqMsg PropRequester PropReqState PropReqVerdict
     Sample SampleRun SampleReq PropRepeat PropTwoRun.

#[local] Opaque chain_bytes.
#[local] Arguments Nat.leb : simpl never.

(** The length of a CHALLENGE_AUTH with a summary of [summary] bytes, opaque data
    of [opaque] bytes, digests of [ds] and a signature of [ss] bytes: two bytes of
    header, parameters, chain hash, nonce, summary, length of the opaque data. *)
Definition auth_size (ds nonce summary opaque ss : nat) : nat := 2 + 2 + ds + nonce + summary + 2 + opaque + ss.
(** The length of the summary SPDM prescribes: none, if none was requested. *)
Definition summary_due (t : MeasurementHashType) (ds : nat) : nat := match t with MHNone => 0 | _ => ds end.

Section PropSummary.
Context {cfg : Config} {cr : Crypto}.
Definition nonce_len : nat := if feature_rand then 32 else 0.

Lemma challenge_served slots R rnd req rsp out rsp' R1 : setting slots -> reached slots R -> bytes req -> rnd_ok rnd ->
  responder_handle_msg R rnd req rsp = (Replied out (Ok tt), rsp', R1) -> code req = 0x83%N ->
  exists s slot t nonce mask sg, rsp_state R = Some (RspChallenge s) /\
    starts_with ([0x11; 0x83]%N ++ challenge_layout slot t nonce) req /\ mask_of_slots slots mask /\
    hash_usable (al_base_hash (ri_algorithms s)) /\
    out = unsigned_auth s slots slot mask (wire_nonce (rnd_nonce rnd)) ++ sg /\ length sg = negotiated_sig_len (RspChallenge s).
Proof.
  intros HS HR HB RK HH C. destruct (step_sound slots R rnd req rsp out rsp' R1 HS HR HB RK HH) as (st & st' & log' & E1 & _ & _ & S & _).
  destruct S as [st log NE (r & ->) | s log ct flags own out (r & ->) OB NM FN ->
    | s log body na al es fs out (r & ->) NF AC -> | s log mask out (r & ->) L MS CF ->
    | s log slot off len out (r & ->) L1 L2 L3 CF -> | s log slot t nonce mask filled ss sg out SW NO NTH CF HU SL LE MS -> SG LS]; try discriminate.
  exists s, slot, t, nonce, mask, sg. unfold negotiated_sig_len. rewrite SL. auto 8.
Qed.
(** Whatever type is requested, a summary as long as a digest, all zeros, is sent:
    the answer is as long, and holds zeros there. *)
Theorem C77_summary_is_zeros_partial slots R st rnd req rsp out rsp' R1 : setting slots -> reached slots R -> bytes req -> rnd_ok rnd ->
  responder_handle_msg R rnd req rsp = (Replied out (Ok tt), rsp', R1) -> code req = 0x83%N -> rsp_state R = Some (RspChallenge st) ->
  let ds := hash_len (al_base_hash (ri_algorithms st)) in
  length out = auth_size ds nonce_len ds 4 (negotiated_sig_len (RspChallenge st)) /\
  firstn ds (skipn (4 + ds + nonce_len) out) = repeat 0%N ds.
Proof.
  intros HS HR HB RK HH C ES ds. destruct (challenge_served slots R rnd req rsp out rsp' R1 HS HR HB RK HH C) as (s & slot & t & nonce & mask & sg & E1 & _ & _ & HU & -> & LG).
  rewrite ES in E1. injection E1 as <-. destruct HU as (_ & HA & _).
  assert (LN : length (wire_nonce (rnd_nonce rnd)) = nonce_len).
  { unfold wire_nonce, nonce_len. destruct RK as [RA _]. destruct feature_rand; [exact RA|reflexivity]. }
  assert (LD : length (slot_chain_digest (al_base_hash (ri_algorithms st)) slots (N.to_nat slot)) = ds).
  { destruct HS as (_ & _ & HC). apply (HC _ _ HA). }
  unfold unsigned_auth, challenge_auth_layout. fold ds. split.
  - rewrite !app_length, LN, LD, LG. unfold auth_size, opaque_bytes, u16le, zeros. cbn [map concat]. rewrite !app_length, !repeat_length. cbn [length]. lia.
  - set (D := slot_chain_digest _ _ _) in *. set (W := wire_nonce _) in *.
    rewrite <- !app_assoc. cbn [app]. cbn [Nat.add skipn].
    rewrite <- LD at 2. rewrite <- LN. rewrite (skipn_app (length D + length W) D), skipn_all2 by lia.
    replace (length D + length W - length D) with (length W) by lia. rewrite (skipn_app (length W) W), skipn_all, Nat.sub_diag. cbn [skipn app].
    apply firstn_app_exact. symmetry. apply repeat_length.
Qed.
(** Two CHALLENGE requests that differ in the type requested (and the requester's
    nonce) only get the same answer, but for the signature. *)
Theorem C77_type_ignored_partial slots R st rnd slot t1 t2 n1 n2 rsp1 rsp2 out1 out2 b1 b2 R1 R2 : setting slots -> reached slots R -> rnd_ok rnd ->
  rsp_state R = Some st ->
  let req t n := [0x11; 0x83]%N ++ challenge_layout slot t n in
  bytes (req t1 n1) -> bytes (req t2 n2) ->
  responder_handle_msg R rnd (req t1 n1) rsp1 = (Replied out1 (Ok tt), b1, R1) ->
  responder_handle_msg R rnd (req t2 n2) rsp2 = (Replied out2 (Ok tt), b2, R2) ->
  length out1 = length out2 /\ firstn (length out1 - negotiated_sig_len st) out1 = firstn (length out2 - negotiated_sig_len st) out2.
Proof.
  intros HS HR RK ES req B1 B2 H1 H2.
  destruct (challenge_served slots R rnd _ rsp1 out1 b1 R1 HS HR B1 RK H1 eq_refl) as (s & sl1 & u1 & v1 & m1 & g1 & E1 & (r1 & W1) & M1 & _ & -> & L1).
  destruct (challenge_served slots R rnd _ rsp2 out2 b2 R2 HS HR B2 RK H2 eq_refl) as (s' & sl2 & u2 & v2 & m2 & g2 & E2 & (r2 & W2) & M2 & _ & -> & L2).
  rewrite ES in E1, E2. injection E1 as ->. injection E2 as <-. cbn in W1, W2. injection W1 as <- _ _. injection W2 as <- _ _.
  assert (m1 = m2) as <- by (eapply mask_unique; eauto).
  rewrite !app_length, L1, L2, !Nat.add_sub, !firstn_app_exact by reflexivity. auto.
Qed.

(** The requester asks for no summary ... *)
Theorem C77_requester_asks_none R fresh buf out buf' R' s : t_wf (req_transcript R) -> req_state R = Some (ReqChallenge s) ->
  requester_next_request R fresh buf = (Ok out, buf', R') -> nth 3 out 0%N = hash_type_code MHNone /\ code out = 0x83%N.
Proof.
  intros W ES H. destruct (next_sound R fresh buf out buf' R' W H) as (st & st' & log' & E1 & RQ & _). rewrite ES in E1. injection E1 as <-.
  inversion RQ; subst. split; reflexivity.
Qed.
(** ... and accepts only answers that have one: a CHALLENGE_AUTH without a summary
    and without opaque data elements is refused, however valid. *)
Theorem C77_requester_wants_summary_partial root R s rsp b R' : req_setting -> req_reached root R -> bytes rsp -> req_state R = Some (ReqChallenge s) ->
  requester_handle_msg R rsp = (Ok b, R') ->
  let ds := hash_len (al_base_hash (qh_algorithms s)) in
  exists ss, sig_len (al_base_asym (qh_algorithms s)) = Some ss /\ auth_size ds nonce_len ds 4 ss <= length rsp.
Proof.
  intros HS HR HB ES H ds. destruct (reached_inv root R (ReqChallenge s) HS HR ES ltac:(discriminate)) as (ER & W & SO).
  destruct (handle_sound R rsp b R' _ HB HS ES SO W H) as (st' & _ & _ & _ & _ & A).
  inversion A as [| | | | |s0 log m rsvd olen ss portion chain log' A1 A2 A3 A4 A5 A6 A7 A8]; subst. exists ss. split; [exact A2|].
  destruct A5 as (r & ->). destruct A8 as (_ & _ & C3 & C4 & C5 & _ & C7). unfold nonce_ok in C4.
  unfold ca_bytes, challenge_auth_layout, auth_size, opaque_bytes, u16le, nonce_len, zeros.
  rewrite !app_length, C3, C4, C5, C7, !repeat_length. fold ds. cbn [length]. lia.
Qed.
Corollary C77_no_summary_refused root R s rsp ss : req_setting -> req_reached root R -> bytes rsp -> req_state R = Some (ReqChallenge s) ->
  let ds := hash_len (al_base_hash (qh_algorithms s)) in
  sig_len (al_base_asym (qh_algorithms s)) = Some ss -> length rsp = auth_size ds nonce_len 0 4 ss ->
  forall b R', requester_handle_msg R rsp <> (Ok b, R').
Proof.
  intros HS HR HB ES ds SL L b R' H. destruct (C77_requester_wants_summary_partial root R s rsp b R' HS HR HB ES H) as (ss' & SL' & L').
  rewrite SL in SL'. injection SL' as <-. fold ds in L'. rewrite L in L'. unfold auth_size in L'.
  assert (0 < ds) by (unfold ds, hash_len; destruct ((_ || _)%bool); [lia|]; destruct ((_ || _)%bool); lia). lia.
Qed.
End PropSummary.

#[local] Existing Instance sample_cfg.
#[local] Existing Instance sample_crypto.
(** Not so: a sample CHALLENGE requests no summary; the answer has one. *)
Lemma C77_sizes : exists s, rsp_state (before 5) = Some (RspChallenge s) /\ hash_len (al_base_hash (ri_algorithms s)) = 32 /\
  negotiated_sig_len (RspChallenge s) = 64.
Proof. eexists. vm_compute. repeat split. Qed.
Lemma C77_answered : match fst (fst (responder_handle_msg (before 5) (sample_rnd 9) (sample_request 5) big_buf)) with Replied _ (Ok tt) => True | _ => False end.
Proof. vm_compute. exact I. Qed.
Theorem C77_summary_refuted : exists R s rnd req rsp out rsp' R1 slot t nonce, setting sample_slots /\ reached sample_slots R /\ bytes req /\ rnd_ok rnd /\
  rsp_state R = Some (RspChallenge s) /\ req = [0x11; 0x83]%N ++ challenge_layout slot t nonce /\ t = MHNone /\
  responder_handle_msg R rnd req rsp = (Replied out (Ok tt), rsp', R1) /\
  let ds := hash_len (al_base_hash (ri_algorithms s)) in
  length out <> auth_size ds nonce_len (summary_due t ds) 4 (negotiated_sig_len (RspChallenge s)).
Proof.
  destruct C77_sizes as (s & ES & ED & EG).
  destruct (handle_ok (before 5) (sample_rnd 9) (sample_request 5) big_buf C77_answered) as (out & b & R1 & H).
  assert (HR : reached sample_slots (before 5)) by (eapply PropResponder.session_reached, before_session; lia).
  assert (HB : bytes (sample_request 5)) by (apply bytes_check; vm_compute; reflexivity).
  assert (HC : code (sample_request 5) = 0x83%N) by (vm_compute; reflexivity).
  assert (EQ : sample_request 5 = [0x11; 0x83]%N ++ challenge_layout 0 MHNone (skipn 4 (sample_request 5))) by (vm_compute; reflexivity).
  destruct (C77_summary_is_zeros_partial sample_slots (before 5) s (sample_rnd 9) (sample_request 5) big_buf out b R1 sample_setting HR HB
    (sample_rnd_ok 9 eq_refl) H HC ES) as [L _]. rewrite ED in L.
  exists (before 5), s, (sample_rnd 9), (sample_request 5), big_buf, out, b, R1, 0%N, MHNone, (skipn 4 (sample_request 5)).
  refine (conj sample_setting (conj HR (conj HB (conj (sample_rnd_ok 9 eq_refl) (conj ES (conj EQ (conj eq_refl (conj H _)))))))).
  cbv zeta. rewrite ED, L. unfold auth_size, summary_due. lia.
Qed.
(** The requester of the sample run, waiting for CHALLENGE_AUTH. *)
Example C77_example : exists s, req_state waiting5 = Some (ReqChallenge s) /\ req_reached [1; 2; 3]%N waiting5 /\
  sig_len (al_base_asym (qh_algorithms s)) = Some 64 /\
  length (repeat 0%N 138) = auth_size (hash_len (al_base_hash (qh_algorithms s))) nonce_len 0 4 64.
Proof.
  assert (X : exists s, req_state waiting5 = Some (ReqChallenge s) /\ sig_len (al_base_asym (qh_algorithms s)) = Some 64 /\
    hash_len (al_base_hash (qh_algorithms s)) = 32) by (eexists; vm_compute; repeat split).
  destruct X as (s & E & SL & EH). exists s. split; [exact E|]. split; [exact waiting5_reached|]. split; [exact SL|]. rewrite EH. reflexivity.
Qed.
