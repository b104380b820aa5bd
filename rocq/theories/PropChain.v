(** C88: a certificate chain is used only if it is complete and belongs to the
    requester's root; and C42 in a session in which nobody can forge. *)
From Verif Require Import Base BaseLemmas Config Encoding MsgCommon MsgVersion MsgCapabilities MsgAlgorithms MsgDigest
     MsgCertificates MsgChallenge MsgError Transcript Crypto Responder Requester SpecWire SpecMsgs SpecResponder SpecRequester SpecAgree SpecAuth
     PropTools RspStep PropResponder PropRspState PropRspAns ReqStep ReqMsg PropRequester PropReqState PropReqLimits PropAgree PropMitm PropAuth
     Sample SampleRun SampleReq.

#[local] Opaque chain_bytes.
#[local] Arguments Nat.leb : simpl never.

Lemma digests_first n mask dig : 0 < n -> N.testbit mask 0 = true -> starts_with (dig 0) (concat (map dig (filter (fun i => slot_in_mask mask i) (seq 0 n)))).
Proof.
  intros L B. destruct n as [|n]; [lia|]. cbn [seq filter]. unfold slot_in_mask at 1. change (N.of_nat 0) with 0%N. rewrite B. cbn [map concat].
  now exists (concat (map dig (filter (fun i => slot_in_mask mask i) (seq 1 n)))).
Qed.

Section Rsp.
Context {cfg : Config} {cr : Crypto}.
(** The last three exchanges of a session that ends with a CHALLENGE. *)
Lemma last_three slots ex x4 x5 x6 R : setting slots -> session slots (ex ++ [x4; x5; x6]) R ->
  code (fst x4) = 0x81%N -> starts_with [0x11; 0x82; 0]%N (fst x5) -> code (fst x6) = 0x83%N ->
  exists s mask, rsp_state R = Some (RspChallenge s) /\
    mask_of_slots slots mask /\ 0 < NUM_SLOTS /\ (N.of_nat (length (slot_chain_bytes slots 0)) < 65536)%N /\
    snd x4 = [0x11; 0x01]%N ++ digests_layout NUM_SLOTS mask (slot_chain_digest (al_base_hash (ri_algorithms s)) slots) /\
    snd x5 = [0x11; 0x02]%N ++ certificate_layout 0 (slot_chain_bytes slots 0) 0.
Proof.
  intros HS H C4 E5 C6.
  change (ex ++ [x4; x5; x6]) with (ex ++ ([x4; x5] ++ [x6])) in H. rewrite app_assoc in H.
  apply session_inv in H as (R2 & r2 & b2 & b2' & H & B2 & K2 & HH2).
  change ([x4; x5]) with ([x4] ++ [x5]) in H. rewrite app_assoc in H.
  apply session_inv in H as (R1 & r1 & b1 & b1' & H & B1 & K1 & HH1).
  apply session_inv in H as (R0 & r0 & b0 & b0' & H & B0 & K0 & HH0).
  assert (Q0 := PropResponder.session_reached _ _ _ H).
  assert (Q1 := reached_handle slots _ _ _ _ _ _ _ Q0 B0 K0 HH0).
  assert (Q2 := reached_handle slots _ _ _ _ _ _ _ Q1 B1 K1 HH1).
  destruct (step_sound slots _ _ _ _ _ _ _ HS Q0 B0 K0 HH0) as (st0 & st1 & l1 & Z0 & Z1 & _ & SV0 & _).
  destruct (step_sound slots _ _ _ _ _ _ _ HS Q1 B1 K1 HH1) as (st1' & st2 & l2 & Z1' & Z2 & _ & SV1 & _).
  destruct (step_sound slots _ _ _ _ _ _ _ HS Q2 B2 K2 HH2) as (st2' & st3 & l3 & Z2' & Z3 & _ & SV2 & _).
  rewrite Z1 in Z1'. injection Z1' as <-. rewrite Z2 in Z2'. injection Z2' as <-.
  remember (t_get (rsp_transcript R0)) as g0 eqn:G0. remember (t_get (rsp_transcript R1)) as g1 eqn:G1. remember (t_get (rsp_transcript R2)) as g2 eqn:G2. clear G0 G1 G2.
  destruct E5 as (rest5 & E5). assert (C5 : code (fst x5) = 0x82%N) by (rewrite E5; reflexivity).
  inversion SV2; subst; try (match goal with SW : starts_with _ (fst x6) |- _ => destruct SW as (? & SW); rewrite SW in C6; discriminate C6 end).
  inversion SV1; subst; try (match goal with SW : starts_with _ (fst x5) |- _ => destruct SW as (? & SW); rewrite SW in C5; discriminate C5 end).
  inversion SV0; subst; try (match goal with SW : starts_with _ (fst x4) |- _ => destruct SW as (? & SW); rewrite SW in C4; discriminate C4 end).
  match goal with SW : starts_with (_ ++ get_certificate_layout ?sl _ _) (fst x5) |- _ => destruct SW as (rest & SW); rewrite E5 in SW; assert (sl = 0%N) as -> by (injection SW; auto) end.
  change (N.to_nat 0) with 0 in *.
  eexists _, mask0. split; [exact Z3|]. split; [assumption|]. split; [assumption|]. split; [|split; assumption].
  unfold slot_chain_bytes. destruct (slot_chain slots 0) as [c|] eqn:EC; [|reflexivity].
  match goal with X : forall c, Some _ = Some c -> chain_fits c |- _ => exact (proj2 (X c eq_refl)) end.
Qed.
End Rsp.

Section PropChain.
Variables (cq : Config) (kq : Crypto) (cr : Config) (kr : Crypto).

(** Under the assumptions of C64_agreement the requester's slot is slot 0 of the
    responder that signed, whole: its digest was announced, the chain was sent in
    one message with nothing remaining, and it is the chain used. *)
Theorem C88_whole_partial (P : list (list N * list N) -> Prop) root exq Q pre req auth al ss :
  @req_setting cq kq -> same_hash kq kr -> @feature_rand cq = @feature_rand cr ->
  (forall ex, P ex -> Forall (@exact_request cr) (map fst ex)) -> keys_held_by_responders kq cr kr P root trust_time ->
  @req_session cq kq root (as_events exq) Q -> exq = pre ++ [(req, auth)] -> code auth = 0x03%N ->
  selected (as_events exq) al -> sig_len (al_base_asym al) = Some ss ->
  Forall (@exact_response cq (hash_len (al_base_hash al)) ss) (map snd exq) ->
  signed_collision kq cr kr P root trust_time (al_base_hash al) (t_get (req_transcript Q)) \/
  exists slots ex R filled portion mask digests certificate,
    @session cr kr slots ex R /\ nth_error slots 0 = Some (Some filled) /\ portion = chain_bytes (fs_chain filled) /\
    In ([0x11; 0x81; 0; 0]%N, digests) exq /\ N.testbit mask 0 = true /\
    starts_with ([0x11; 0x01; 0; mask]%N ++ @sha kq (al_base_hash al) portion) digests /\
    In (@get_certificate_msg cq, certificate) exq /\ certificate = [0x11; 0x02]%N ++ certificate_layout 0 portion 0 /\
    @authenticates cq kq root al 0 portion (t_get (req_transcript Q)) ss auth.
Proof.
  intros HQ SH HFR HP HK SQ EX CA SE SL XQ.
  destruct (C64_agreement cq kq cr kr P root exq Q pre req auth al ss HQ SH HFR HP HK SQ EX CA SE SL XQ)
    as [C|(slots & earlier & recent & R & id & HS & SR & ES & F2 & EA & _)]; [left; exact C|right].
  destruct (@req_shape cq kq root exq Q pre req auth HQ SQ EX CA)
    as (v & own & ct & fl & al0 & slot & portion & na & fs & body & remainder & nonce & m1 & m2 & m3 & m4 & m5 & ss0 & EXQ
        & TA & _ & _ & _ & _ & _ & _ & _ & _ & _ & _ & SW4 & SW5 & LP & _ & SL0 & AU & _).
  assert (al0 = al) as ->.
  { eapply (@selected_unique cq kq); eauto. destruct (told_selected _ _ _ _ _ _ TA) as (m & b & I & Y). exists m, b. split; [|exact Y].
    rewrite <- (firstn_skipn 3 exq), as_events_app, received_app. apply in_or_app. left. exact I. }
  assert (ss0 = ss) as -> by congruence.
  rewrite EXQ in F2, XQ. rewrite EXQ. clear EXQ EX TA SE SQ.
  inversion F2 as [|? y1 ? r1 Y1 F3]; subst. inversion F3 as [|? y2 ? r2 Y2 F4]; subst. inversion F4 as [|? y3 ? r3 Y3 F5]; subst.
  inversion F5 as [|? y4 ? r4 Y4 F6]; subst. inversion F6 as [|? y5 ? r5 Y5 F7]; subst. inversion F7 as [|? y6 ? r6 Y6 F8]; subst.
  inversion F8; subst. clear F2 F3 F4 F5 F6 F7 F8.
  assert (SR0 := SR).
  change [y1; y2; y3; y4; y5; y6] with ([y1; y2; y3] ++ [y4; y5; y6]) in SR. rewrite app_assoc in SR.
  destruct Y4 as [Y4 Z4], Y5 as [Y5 Z5], Y6 as [Y6 _]. cbn [fst snd] in *.
  destruct Z4 as [Z4|[Z4 _]]; [|discriminate Z4]. destruct Z5 as [Z5|[Z5 _]]; [|discriminate Z5].
  assert (E5 : starts_with [0x11; 0x82; 0]%N (fst y5)) by (rewrite <- Y5; eexists; reflexivity).
  destruct (@last_three cr kr slots (earlier ++ [y1; y2; y3]) y4 y5 y6 R HS SR) as (s & mask & Z3 & MS & NS & LC & D4 & D5);
    [rewrite <- Y4; reflexivity|exact E5|rewrite <- Y6; reflexivity|].
  rewrite ES in Z3. injection Z3 as <-. rewrite <- Z4 in D4. rewrite <- Z5 in D5.
  (* the certificate *)
  destruct SW5 as (rest & SW5). cbn [app] in SW5, D5. rewrite D5 in SW5. apply (f_equal (skipn 2)) in SW5. cbn [skipn] in SW5.
  assert (LAY : certificate_layout slot portion remainder = certificate_layout 0 (slot_chain_bytes slots 0) 0).
  { symmetry. apply (cancel_certificate _ _ _ _ _ _ [] rest LC LP). rewrite app_nil_r. exact SW5. }
  clear SW5. assert (LAY' := LAY). unfold certificate_layout in LAY'.
  apply cancel in LAY' as [E1 LAY']; [|reflexivity]. injection E1 as ->.
  apply cancel in LAY' as [_ LAY']; [|reflexivity]. apply cancel in LAY' as [_ LAY']; [|reflexivity]. apply cancel in LAY' as [_ EP]; [|reflexivity].
  clear rest.
  destruct AU as (am & rsvd & olen & chain & AU1 & AU2 & AU3 & AU4 & AU5 & CT & AU7).
  assert (SC : exists filled, nth_error slots 0 = Some (Some filled) /\ portion = chain_bytes (fs_chain filled)).
  { unfold slot_chain_bytes, slot_chain in EP. destruct (nth_error slots 0) as [[filled|]|]; [eauto|exfalso..];
      rewrite (proj1 CT) in EP; apply (f_equal (@length N)) in EP; rewrite GramCert.chain_bytes_length in EP; cbn [length] in EP; lia. }
  destruct SC as (filled & NTH & EP').
  exists slots, (earlier ++ [y1; y2; y3; y4; y5; y6]), R, filled, portion, mask, m4, m5.
  split; [exact SR0|]. split; [exact NTH|]. split; [exact EP'|]. split; [right; right; right; left; reflexivity|].
  destruct MS as [_ MS].
  assert (B0 : N.testbit mask 0 = true). { apply (MS 0). unfold slot_chain. rewrite NTH. eauto. }
  split; [exact B0|]. split.
  { rewrite D4. unfold digests_layout.
    destruct (digests_first (@NUM_SLOTS cr) mask (@slot_chain_digest kr (al_base_hash (ri_algorithms id)) slots) NS B0) as (r & ER).
    change (slot_in_mask mask) with (fun i => slot_in_mask mask i). exists r. rewrite SH, EP. exact (f_equal (fun l => [0x11; 0x01; 0; mask]%N ++ l) ER). }
  split; [right; right; right; right; left; reflexivity|]. split; [rewrite EP; exact D5|].
  exists am, rsvd, olen, chain. auto 10.
Qed.

(** C42 in such a session: the slot is the one asked for, and the digest announced
    for it is that of the chain. *)
Theorem C42_unforged_partial (P : list (list N * list N) -> Prop) root exq Q pre req auth al ss :
  @req_setting cq kq -> same_hash kq kr -> @feature_rand cq = @feature_rand cr ->
  (forall ex, P ex -> Forall (@exact_request cr) (map fst ex)) -> keys_held_by_responders kq cr kr P root trust_time ->
  @req_session cq kq root (as_events exq) Q -> exq = pre ++ [(req, auth)] -> code auth = 0x03%N ->
  selected (as_events exq) al -> sig_len (al_base_asym al) = Some ss ->
  Forall (@exact_response cq (hash_len (al_base_hash al)) ss) (map snd exq) ->
  signed_collision kq cr kr P root trust_time (al_base_hash al) (t_get (req_transcript Q)) \/
  exists portion mask digests len certificate,
    In ([0x11; 0x81; 0; 0]%N, digests) exq /\ N.testbit mask 0 = true /\
    starts_with ([0x11; 0x01; 0; mask]%N ++ @sha kq (al_base_hash al) portion) digests /\
    In ([0x11; 0x82]%N ++ get_certificate_layout 0 0 len, certificate) exq /\
    starts_with ([0x11; 0x02]%N ++ certificate_layout 0 portion 0) certificate /\
    @authenticates cq kq root al 0 portion (t_get (req_transcript Q)) ss auth.
Proof.
  intros HQ SH HFR HP HK SQ EX CA SE SL XQ.
  destruct (C88_whole_partial P root exq Q pre req auth al ss HQ SH HFR HP HK SQ EX CA SE SL XQ)
    as [C|(slots & ex & R & filled & portion & mask & d & c & _ & _ & _ & I & B & D & I' & -> & A)]; [left; exact C|right].
  exists portion, mask, d, (N.of_nat (@MAX_CERT_CHAIN_SIZE cq) mod 65536)%N, ([0x11; 0x02]%N ++ certificate_layout 0 portion 0).
  split; [exact I|]. split; [exact B|]. split; [exact D|]. split; [exact I'|]. split; [exists []; now rewrite app_nil_r|exact A].
Qed.
End PropChain.

(** The root hash at the start of a chain does not matter for the trust in it. *)
Theorem C88_root_hash_ignored {cfg : Config} {cr : Crypto} root asym ds c h :
  chain_trusted root asym ds (chain_bytes c) c -> length h = ds ->
  let c' := mkChain h (cc_leaf_cert c) (cc_intermediates c) in chain_trusted root asym ds (chain_bytes c') c'.
Proof.
  intros (_ & (L & F & D & M) & W) H. cbn [cc_leaf_cert cc_intermediates]. split; [reflexivity|]. split; [|exact W].
  split; [exact H|]. auto.
Qed.

#[local] Existing Instance sample_cfg.
#[local] Existing Instance sample_crypto.
(** A requester authenticates with a chain of which, as the CERTIFICATE message
    said, 7 bytes were still to come, and whose root hash is not the hash of the
    root certificate. *)
Definition partial_certificate : list N := [0x11; 0x02]%N ++ certificate_layout 0 forged_chain 7.
Definition partial_run : list event * bool * Requester :=
  match drive 2 (firstn 4 sample_responses ++ [partial_certificate]) sample_q0 with Some x => x | None => ([], false, sample_q0) end.
Definition partial_challenged : Requester := let '(_, _, R) := requester_next_request (snd partial_run) (repeat 7%N 32) big_buf in R.
Definition partial_unsigned : list N :=
  [0x11; 0x03; 0; 1]%N ++ toy_hash 1 forged_chain ++ firstn (length (sample_response 5) - 100) (skipn 36 (sample_response 5)).
Definition partial_auth : list N := Eval vm_compute in
  partial_unsigned ++ repeat (toy_key (toy_hash 1 (t_get (req_transcript partial_challenged) ++ partial_unsigned))) 64.
Definition partial_rounds : list (list N * list N) := Eval vm_compute in
  combine (sent (fst (fst partial_run))) (received (fst (fst partial_run))).
Theorem C88_requester_refuted : exists root ev R rsp R' portion chain,
  req_setting /\ req_session root ev R /\ prompted ev /\ bytes rsp /\
  requester_handle_msg R rsp = (Ok true, R') /\ code rsp = 0x03%N /\
  In ([0x11; 0x02]%N ++ certificate_layout 0 portion 7) (received ev) /\
  portion = chain_bytes chain /\ cc_root_hash chain <> sha 1 root.
Proof.
  exists [1; 2; 3]%N.
  destruct (drive 2 (firstn 4 sample_responses ++ [partial_certificate]) sample_q0) as [[[ev b] R]|] eqn:E.
  2: { vm_compute in E. discriminate. }
  assert (E' := E). apply (drive_session [1; 2; 3]%N _ _ _ [] _ _ _ (req_session_new _)) in E'.
  2: { repeat (constructor; [vm_compute; reflexivity|]). constructor. }
  2: { vm_compute. reflexivity. }
  destruct (requester_next_request R (repeat 7%N 32) big_buf) as [[r buf'] R1] eqn:EN.
  assert (ER : R = snd partial_run) by (unfold partial_run; now rewrite E).
  assert (ER1 : R1 = partial_challenged) by (unfold partial_challenged; now rewrite <- ER, EN).
  assert (OK : match r with Ok _ => True | _ => False end).
  { replace r with (fst (fst (requester_next_request R (repeat 7%N 32) big_buf))) by (now rewrite EN). rewrite ER. vm_compute. exact I. }
  destruct r as [out|e|p]; try tauto.
  exists (ev ++ [Sent out]), R1, partial_auth.
  assert (HH : fst (requester_handle_msg R1 partial_auth) = Ok true) by (rewrite ER1; vm_compute; reflexivity).
  destruct (requester_handle_msg R1 partial_auth) as [r2 R2]. cbn [fst] in HH. subst r2. exists R2, forged_chain, (sample_chain 5).
  split; [exact sample_req_setting|]. split.
  { eapply req_session_sent; [exact E'| |exact EN]. split; [reflexivity|]. apply bytes_repeat. reflexivity. }
  assert (EV : ev = fst (fst partial_run)) by (unfold partial_run; now rewrite E).
  split; [rewrite EV; apply (prompted_rounds partial_rounds)|].
  split; [apply bytes_check; vm_compute; reflexivity|]. split; [reflexivity|]. split; [reflexivity|].
  split; [|split; [vm_compute; reflexivity|vm_compute; discriminate]].
  rewrite received_app. apply in_or_app. left. rewrite EV.
  match goal with |- In _ ?l => let l' := eval vm_compute in l in change l with l' end.
  do 4 right. left. vm_compute. reflexivity.
Qed.

(** A responder asked for one byte of the chain at offset 5 sends all of it. *)
Definition one_byte_request : list N := [0x11; 0x82]%N ++ get_certificate_layout 0 5 1.
Definition one_byte_requests : list (list N) := Eval vm_compute in firstn 4 sample_requests ++ [one_byte_request].
Theorem C88_responder_refuted : exists slots ex R req portion,
  setting slots /\ session slots (ex ++ [(req, [0x11; 0x02]%N ++ certificate_layout 0 portion 0)]) R /\
  req = [0x11; 0x82]%N ++ get_certificate_layout 0 5 1 /\ 1 < length portion.
Proof.
  exists sample_slots, (removelast (served_ex one_byte_requests)), (served_R one_byte_requests), one_byte_request, (chain_bytes (sample_chain 5)).
  split; [exact sample_setting|]. split; [|split; [reflexivity|vm_compute; lia]].
  replace (removelast (served_ex one_byte_requests) ++ [(one_byte_request, [0x11; 0x02]%N ++ certificate_layout 0 (chain_bytes (sample_chain 5)) 0)])
    with (served_ex one_byte_requests) by (vm_compute; reflexivity).
  apply served_session; [reflexivity|apply bytes_all; reflexivity|vm_compute; discriminate].
Qed.

Example C88_example :
  @req_setting sample_cfg world_crypto /\ same_hash world_crypto sample_crypto /\
  keys_held_by_responders world_crypto sample_cfg sample_crypto (fun ex => Forall exact_request (map fst ex)) [1; 2; 3]%N trust_time /\
  (exists Q, @req_session sample_cfg world_crypto [1; 2; 3]%N (as_events sample_exchanges) Q) /\
  selected (as_events sample_exchanges) agreed_algorithms /\
  Forall (exact_response (hash_len (al_base_hash agreed_algorithms)) 64) (map snd sample_exchanges).
Proof. destruct C64_example as (A & B & C & _ & _ & D & E & F). exact (conj A (conj B (conj C (conj D (conj E F))))). Qed.
Print Assumptions C88_whole_partial.
Print Assumptions C42_unforged_partial.
Print Assumptions C88_requester_refuted.
