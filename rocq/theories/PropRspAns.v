(** C28-C32: what the responder answers, and when it panics. *)
From Verif Require Import Base BaseLemmas Config Encoding MsgCommon MsgVersion MsgCapabilities MsgAlgorithms MsgDigest
     MsgCertificates MsgChallenge MsgError Transcript Crypto Responder Requester SpecWire SpecMsgs SpecResponder FlagLemmas
     WriterLogic WriterSafe PropTools PropTranscript PropCerts PropAlg PropChal PropGeneric RspParts RspStep RspSim RspPanic PropResponder PropRspState
     Sample SampleRun.

#[local] Opaque chain_bytes.
#[local] Arguments Nat.leb : simpl never.
Section PropRspAns.
Context {cfg : Config} {cr : Crypto}.

(** * C28 *)
(** One algorithm, and it was offered. *)
Lemma lowest_offered o c : lowest_of o c -> N.land o c = c /\ exists i, c = (2 ^ i)%N /\ N.testbit o i = true.
Proof.
  intros (i & T & _ & ->). split; [|eauto]. apply N.bits_inj. intros j. rewrite N.land_spec, N.pow2_bits_eqb.
  destruct (N.eqb_spec i j) as [->|]; [now rewrite T|apply andb_false_r].
Qed.
Definition entry_lowest (a b : AlgorithmRequest) : Prop :=
  alg_struct_type a = alg_struct_type b /\ lowest_of (alg_struct_fixed a) (alg_struct_fixed b).
Theorem C28_selection_partial slots R rnd req rsp out rsp' R' s : setting slots -> reached slots R -> bytes req -> rnd_ok rnd ->
  rsp_state R = Some (RspAlgorithms s) -> code req = 0xE3%N ->
  responder_handle_msg R rnd req rsp = (Replied out (Ok tt), rsp', R') ->
  exists body na al es fs,
    starts_with ([0x11; 0xE3]%N ++ body) req /\ negotiate_fmt body na /\
    na_num_requests na = N.of_nat (length es) /\ alg_array (na_requests na) es /\
    al_num_responses al = N.of_nat (length fs) /\ alg_array (al_responses al) fs /\
    al_measurement_spec al = na_measurement_spec na /\ al_measurement_hash al = al_base_hash al /\
    (overflow_checks = true \/ ~ empty_offer na es ->
     lowest_of (na_base_hash_algo na) (al_base_hash al) /\ lowest_of (na_base_asym_algo na) (al_base_asym al) /\
     Forall2 entry_lowest es fs) /\
    rsp_state R' = Some (RspIdAuth (mkRspId (ra_requester_ct s) (ra_requester_cap s) (ra_responder_ct s) (ra_responder_cap s) al)) /\
    out = [0x11; 0x63]%N ++ algorithms_layout (N.of_nat (length fs)) (36 + 4 * N.of_nat (length fs))
            (al_measurement_spec al) (al_measurement_hash al) (al_base_asym al) (al_base_hash al) (no_ext fs).
Proof.
  intros HS HR HB RK ES EC HH. destruct (step_sound slots R rnd req rsp out rsp' R' HS HR HB RK HH)
      as (st & st' & log' & E1 & E2 & _ & SV & _).
  rewrite ES in E1. injection E1 as <-. remember (t_get (rsp_transcript R)) as log0 eqn:EL. clear EL.
  inversion SV as [st log NE SW | | s0 log body na al es fs out0 SW NF AC EO | | |]; subst.
  { destruct SW as (r & ->). discriminate EC. }
  pose proof AC as (A1 & A2 & A3 & A4 & A5 & A6 & A7 & A8 & A9). exists body, na, al, es, fs.
  repeat (split; [assumption|]). split; [|auto].
  assert (SEL : forall o c, selected o c -> overflow_checks = true \/ o <> 0%N -> lowest_of o c).
  { intros o c [X|(X & Y & _)] [Z|Z]; auto; congruence. }
  intros D. split; [|split].
  - apply SEL; auto. destruct D as [D|D]; [auto|right]. intros X. apply D. left. auto.
  - apply SEL; auto. destruct D as [D|D]; [auto|right]. intros X. apply D. right. left. auto.
  - assert (D' : overflow_checks = true \/ Forall (fun a => alg_struct_fixed a <> 0%N) es).
    { destruct D as [D|D]; [auto|right]. apply Forall_forall. intros a HI X. apply D. right. right. apply Exists_exists. exists a. auto. }
    clear - A5 D' SEL. induction A5 as [|a b es fs [T S] _ IH]; constructor.
    + split; [auto|]. apply SEL; auto. destruct D' as [D'|D']; [auto|]. inversion D'; auto.
    + apply IH. destruct D' as [D'|D']; [auto|]. inversion D'; auto.
Qed.

(** * C29 *)
Theorem C29_digests slots R rnd req rsp out rsp' R' s : setting slots -> reached slots R -> bytes req -> rnd_ok rnd ->
  rsp_state R = Some (RspIdAuth s) -> code req = 0x81%N ->
  responder_handle_msg R rnd req rsp = (Replied out (Ok tt), rsp', R') ->
  rsp_state R' = Some (RspIdAuth s) /\
  exists mask, is_byte mask /\
    (forall i, N.testbit mask (N.of_nat i) = true <-> exists filled, nth_error slots i = Some (Some filled)) /\
    out = [0x11; 0x01; 0; mask]%N ++
      concat (map (fun i => sha (al_base_hash (ri_algorithms s)) (slot_chain_bytes slots i))
                  (filter (fun i => N.testbit mask (N.of_nat i)) (seq 0 NUM_SLOTS))).
Proof.
  intros HS HR HB RK ES EC HH. destruct (step_sound slots R rnd req rsp out rsp' R' HS HR HB RK HH)
      as (st & st' & log' & E1 & E2 & _ & SV & _).
  rewrite ES in E1. injection E1 as <-. remember (t_get (rsp_transcript R)) as log0 eqn:EL. clear EL.
  inversion SV as [st log NE SW | | | s0 log mask out0 SW L [MB MS] CF EO | s0 log slot off len out0 SW |]; subst.
  { destruct SW as (r & ->). discriminate EC. }
  2: { destruct SW as (r & ->). discriminate EC. }
  split; [auto|]. exists mask. split; [auto|]. split; [|reflexivity].
  intros i. rewrite (MS i : N.testbit mask (N.of_nat i) = true <-> _). unfold slot_chain.
  destruct (nth_error slots i) as [[f|]|]; split; intros (x & X); try discriminate; eauto.
Qed.
(** GET_DIGESTS is always answered when the hash and the chains are usable and there is room. *)
Theorem C29_digests_answered slots R rnd req rsp s mask : setting slots -> reached slots R -> bytes req -> rnd_ok rnd ->
  rsp_state R = Some (RspIdAuth s) -> starts_with [0x11; 0x81]%N req -> 2 < length req -> mask_of_slots slots mask ->
  (forall i c, slot_chain slots i = Some c -> chain_fits c /\ hash_usable (al_base_hash (ri_algorithms s))) ->
  let out := [0x11; 0x01]%N ++ digests_layout NUM_SLOTS mask (slot_chain_digest (al_base_hash (ri_algorithms s)) slots) in
  length out <= length rsp -> length (t_get (rsp_transcript R)) + length req + length out <= TRANSCRIPT_SIZE ->
  exists R', responder_handle_msg R rnd req rsp = (Replied out (Ok tt), out ++ skipn (length out) rsp, R').
Proof.
  intros HS HR HB RK ES SW L MS CF out L1 L2.
  destruct (step_complete slots R rnd req rsp (RspIdAuth s) out (RspIdAuth s) (t_get (rsp_transcript R) ++ req ++ out) HS HR HB RK ES) as (R' & X & _); eauto.
  - eapply served_digests; eauto.
  - rewrite !app_length. lia.
Qed.

(** * C30 *)
Theorem C30_certificate slots R rnd req rsp out rsp' R' s : setting slots -> reached slots R -> bytes req -> rnd_ok rnd ->
  rsp_state R = Some (RspIdAuth s) -> code req = 0x82%N ->
  responder_handle_msg R rnd req rsp = (Replied out (Ok tt), rsp', R') ->
  exists slot off len, starts_with ([0x11; 0x82]%N ++ get_certificate_layout slot off len) req /\ N.to_nat slot < NUM_SLOTS /\
    out = [0x11; 0x02]%N ++ certificate_layout slot
            (match nth_error slots (N.to_nat slot) with Some (Some f) => chain_bytes (fs_chain f) | _ => [] end) 0 /\
    rsp_state R' = Some (RspChallenge s).
Proof.
  intros HS HR HB RK ES EC HH. destruct (step_sound slots R rnd req rsp out rsp' R' HS HR HB RK HH)
      as (st & st' & log' & E1 & E2 & _ & SV & _).
  rewrite ES in E1. injection E1 as <-. remember (t_get (rsp_transcript R)) as log0 eqn:EL. clear EL.
  inversion SV as [st log NE SW | | | s0 log mask out0 SW L MS CF EO | s0 log slot off len out0 SW L1 L2 L3 CF EO |]; subst.
  { destruct SW as (r & ->). discriminate EC. }
  { destruct SW as (r & ->). discriminate EC. }
  exists slot, off, len. split; [auto|]. split; [auto|]. split; [|auto].
  unfold slot_chain_bytes, slot_chain. destruct (nth_error slots (N.to_nat slot)) as [[f|]|]; reflexivity.
Qed.
Theorem C30_certificate_answered slots R rnd req rsp s slot off len : setting slots -> reached slots R -> bytes req -> rnd_ok rnd ->
  rsp_state R = Some (RspIdAuth s) -> starts_with ([0x11; 0x82]%N ++ get_certificate_layout slot off len) req ->
  (off < 65536)%N -> (len < 65536)%N -> N.to_nat slot < NUM_SLOTS ->
  (forall c, slot_chain slots (N.to_nat slot) = Some c -> chain_fits c) ->
  let out := [0x11; 0x02]%N ++ certificate_layout slot (slot_chain_bytes slots (N.to_nat slot)) 0 in
  length out <= length rsp -> length (t_get (rsp_transcript R)) + length req + length out <= TRANSCRIPT_SIZE ->
  exists R', responder_handle_msg R rnd req rsp = (Replied out (Ok tt), out ++ skipn (length out) rsp, R') /\
    rsp_state R' = Some (RspChallenge s).
Proof.
  intros HS HR HB RK ES SW O1 O2 L CF out L1 L2.
  destruct (step_complete slots R rnd req rsp (RspIdAuth s) out (RspChallenge s) (t_get (rsp_transcript R) ++ req ++ out) HS HR HB RK ES) as (R' & X & Y & _); eauto.
  - eapply served_certificate; eauto.
  - rewrite !app_length. lia.
Qed.
Lemma dispatch_error slots R rnd req rsp st e : reached slots R -> rsp_state R = Some st ->
  rsp_dispatch st slots rnd req (mkCtx rsp (rsp_transcript R)) = (Err e, mkCtx rsp (rsp_transcript R)) ->
  exists out rsp' R', responder_handle_msg R rnd req rsp = (Replied out (Err e), rsp', R') /\
    rsp_state R' = Some RspError /\ (length (error_reply e) <= length rsp -> out = error_reply e) /\ t_get (rsp_transcript R') = t_get (rsp_transcript R).
Proof.
  intros HR ES D. destruct (reached_ok _ _ HR) as [EQ W]. destruct (finish_error _ _ _ _ _ _ _ D) as (out & rsp' & H).
  assert (ER : R = mkResponder slots (rsp_transcript R) (Some st)) by (destruct R; cbn in *; congruence).
  rewrite <- ER in H. pose proof (C26_error_response slots R rnd req rsp _ _ _ _ HR H) as (A & _ & _ & B & _).
  eexists _, _, _. split; [exact H|]. auto.
Qed.
Theorem C30_invalid_slot slots R rnd req rsp s slot off len : setting slots -> reached slots R -> bytes req ->
  rsp_state R = Some (RspIdAuth s) -> starts_with ([0x11; 0x82]%N ++ get_certificate_layout slot off len) req ->
  (off < 65536)%N -> (len < 65536)%N -> NUM_SLOTS <= N.to_nat slot ->
  exists out rsp' R', responder_handle_msg R rnd req rsp = (Replied out (Err RspInvalidSlot), rsp', R') /\
    rsp_state R' = Some RspError /\ (4 <= length rsp -> out = error_reply RspInvalidSlot) /\ t_get (rsp_transcript R') = t_get (rsp_transcript R).
Proof.
  intros (HL & H8 & HC) HR HB ES (r & E1) O1 O2 GE. apply (dispatch_error slots R rnd req rsp (RspIdAuth s) RspInvalidSlot HR ES).
  set (c := mkCtx rsp (rsp_transcript R)).
  assert (L : 2 < length req) by (rewrite E1; unfold get_certificate_layout; rewrite !app_length; simpl; lia).
  assert (SH : starts_with [version_of KGetCertificate; code_of KGetCertificate] req).
  { exists (get_certificate_layout slot off len ++ r). rewrite E1. reflexivity. }
  cbn [rsp_dispatch]. unfold id_auth_handle_msg. rewrite (not_reset req KGetCertificate) by (auto; discriminate).
  rewrite (bind_run _ _ _ false c).
  2: { apply map_err_lift_run. apply (proj2 (header_false KGetDigests req)). split; [auto|]. rewrite E1. discriminate. }
  change GetCertificate_id with (id_of KGetCertificate). rewrite (bind_run _ _ _ _ _ (expect_true req KGetCertificate c L SH)).
  unfold handle_get_certificate.
  rewrite (body_run req HB _ 0x11%N 0x82%N (get_certificate_layout slot off len ++ r)) by (rewrite E1; now rewrite <- app_assoc).
  rewrite (parse_run req HB _ _ _ _ _ _ _ r (mkGetCertificate slot off len) _ E1 C12_get_certificate_parse)
    by (split; [assumption|split; [assumption|reflexivity]]).
  cbn [gcert_slot]. destruct (Nat.leb_spec NUM_SLOTS (N.to_nat slot)); [reflexivity|lia].
Qed.

(** * C31 *)
Theorem C31_challenge_auth_partial slots R rnd req rsp out rsp' R' s : setting slots -> reached slots R -> bytes req -> rnd_ok rnd ->
  rsp_state R = Some (RspChallenge s) -> code req = 0x83%N ->
  responder_handle_msg R rnd req rsp = (Replied out (Ok tt), rsp', R') ->
  exists slot t nonce mask filled signature,
    starts_with ([0x11; 0x83]%N ++ challenge_layout slot t nonce) req /\ nonce_ok nonce /\
    nth_error slots (N.to_nat slot) = Some (Some filled) /\ mask_of_slots slots mask /\
    let h := al_base_hash (ri_algorithms s) in
    let unsigned wire_slot := [0x11; 0x03]%N ++ challenge_auth_layout wire_slot 0 false mask (sha h (chain_bytes (fs_chain filled)))
                      (wire_nonce (rnd_nonce rnd)) (zeros (hash_len h)) 4 [] [] in
    exists wire_slot, (both_mutual s = false \/ slot = 0%N -> wire_slot = slot) /\
    out = unsigned wire_slot ++ signature /\
    fs_signer filled (rnd_sign rnd) (sha h (t_get (rsp_transcript R) ++ req ++ unsigned wire_slot)) = Ok signature /\
    sig_len (al_base_asym (ri_algorithms s)) = Some (length signature) /\
    t_get (rsp_transcript R') = t_get (rsp_transcript R) ++ req ++ unsigned wire_slot /\
    rsp_state R' = Some (RspChallenge s).
Proof.
  intros HS HR HB RK ES EC HH. destruct (step_sound slots R rnd req rsp out rsp' R' HS HR HB RK HH)
      as (st & st' & log' & E1 & E2 & E3 & SV & _).
  rewrite ES in E1. injection E1 as <-. remember (t_get (rsp_transcript R)) as log0 eqn:EL. clear EL.
  inversion SV as [st log NE SW | | | | | s0 log slot t nonce mask filled ss sg out0 SW NO NTH CF HU SL LE MS EO SG LS]; subst.
  { destruct SW as (r & ->). discriminate EC. }
  exists slot, t, nonce, mask, filled, sg. split; [auto|]. split; [auto|]. split; [auto|]. split; [auto|].
  assert (EU : unsigned_auth s slots slot mask (wire_nonce (rnd_nonce rnd)) = [0x11; 0x03]%N ++
     challenge_auth_layout (if both_mutual s then 0 else slot) 0 false mask (sha (al_base_hash (ri_algorithms s)) (chain_bytes (fs_chain filled)))
                      (wire_nonce (rnd_nonce rnd)) (zeros (hash_len (al_base_hash (ri_algorithms s)))) 4 [] []).
  { unfold unsigned_auth, slot_chain_digest, slot_chain_bytes, slot_chain. now rewrite NTH. }
  rewrite EU in *.
  exists (if both_mutual s then 0 else slot)%N. split; [|auto].
  destruct (both_mutual s); intros [X|X]; congruence.
Qed.
Theorem C31_challenge_answered slots R rnd req rsp s slot t nonce mask filled ss signature : setting slots -> reached slots R -> bytes req -> rnd_ok rnd ->
  rsp_state R = Some (RspChallenge s) ->
  starts_with ([0x11; 0x83]%N ++ challenge_layout slot t nonce) req -> nonce_ok nonce ->
  nth_error slots (N.to_nat slot) = Some (Some filled) -> chain_fits (fs_chain filled) ->
  hash_usable (al_base_hash (ri_algorithms s)) ->
  sig_len (al_base_asym (ri_algorithms s)) = Some ss -> ss <= MAX_SIGNATURE_SIZE -> mask_of_slots slots mask ->
  let unsigned := unsigned_auth s slots slot mask (wire_nonce (rnd_nonce rnd)) in
  fs_signer filled (rnd_sign rnd) (sha (al_base_hash (ri_algorithms s)) (t_get (rsp_transcript R) ++ req ++ unsigned)) = Ok signature ->
  length signature = ss ->
  length unsigned + ss <= length rsp -> length (t_get (rsp_transcript R)) + length req + length unsigned <= TRANSCRIPT_SIZE ->
  exists R' rsp', responder_handle_msg R rnd req rsp = (Replied (unsigned ++ signature) (Ok tt), rsp', R').
Proof.
  intros HS HR HB RK ES SW NO NTH CF HU SL LE MS u SG LS L1 L2.
  destruct (step_complete slots R rnd req rsp (RspChallenge s) (u ++ signature) (RspChallenge s) (t_get (rsp_transcript R) ++ req ++ u) HS HR HB RK ES) as (R' & X & _); eauto.
  - eapply served_challenge; eauto.
  - rewrite app_length. lia.
  - rewrite !app_length. lia.
Qed.
(** An empty or out-of-range slot: nothing is signed, nothing is logged. *)
Theorem C31_invalid_slot slots R rnd req rsp s slot t nonce ss : setting slots -> reached slots R -> bytes req ->
  rsp_state R = Some (RspChallenge s) ->
  starts_with ([0x11; 0x83]%N ++ challenge_layout slot t nonce) req -> nonce_ok nonce ->
  sha2 (al_base_hash (ri_algorithms s)) -> hash_len (al_base_hash (ri_algorithms s)) <= MAX_DIGEST_SIZE ->
  sig_len (al_base_asym (ri_algorithms s)) = Some ss -> ss <= MAX_SIGNATURE_SIZE ->
  (forall filled, nth_error slots (N.to_nat slot) <> Some (Some filled)) ->
  exists out rsp' R', responder_handle_msg R rnd req rsp = (Replied out (Err RspInvalidSlot), rsp', R') /\
    rsp_state R' = Some RspError /\ (4 <= length rsp -> out = error_reply RspInvalidSlot) /\ t_get (rsp_transcript R') = t_get (rsp_transcript R).
Proof.
  intros (HL & H8 & HC) HR HB ES (r & E1) NO S2 LH HS1 HS2 NF. apply (dispatch_error slots R rnd req rsp (RspChallenge s) RspInvalidSlot HR ES).
  set (c := mkCtx rsp (rsp_transcript R)).
  assert (L : 2 < length req) by (rewrite E1; unfold challenge_layout; rewrite !app_length; simpl; lia).
  assert (SH : starts_with [version_of KChallenge; code_of KChallenge] req).
  { exists (challenge_layout slot t nonce ++ r). rewrite E1. reflexivity. }
  cbn [rsp_dispatch]. unfold challenge_handle_msg. rewrite (not_reset req KChallenge) by (auto; discriminate).
  change Challenge_id with (id_of KChallenge). rewrite (bind_run _ _ _ _ _ (expect_true req KChallenge c L SH)).
  rewrite (bind_run _ _ _ (hash_len (al_base_hash (ri_algorithms s))) c).
  2: { apply lift_run. rewrite digest_size_of by auto. unfold digest_size. destruct (Nat.leb_spec (hash_len (al_base_hash (ri_algorithms s))) MAX_DIGEST_SIZE); [auto|lia]. }
  rewrite (bind_run _ _ _ ss c).
  2: { apply lift_run. rewrite (sig_size_of _ _ HS1). unfold signature_size. destruct (Nat.leb_spec ss MAX_SIGNATURE_SIZE); [auto|lia]. }
  rewrite (body_run req HB _ 0x11%N 0x83%N (challenge_layout slot t nonce ++ r)) by (rewrite E1; now rewrite <- app_assoc).
  rewrite (parse_run req HB _ _ _ _ _ _ _ r (mkChallenge slot t nonce) _ E1 C14_challenge_parse) by (split; [assumption|reflexivity]).
  cbn [ch_slot]. unfold bind at 1, lift at 1, slot_get.
  destruct (nth_error slots (N.to_nat slot)) as [[f|]|] eqn:EN; [destruct (NF f eq_refl)|reflexivity|reflexivity].
Qed.

(** * C32 *)
(** Every panic has one of the causes listed in the specification. *)
Theorem C32_panic_causes slots R rnd req rsp p rsp' R' : setting slots -> reached slots R -> bytes req -> rnd_ok rnd ->
  responder_handle_msg R rnd req rsp = (Panicked p, rsp', R') ->
  rsp_state R = None \/ exists st, rsp_state R = Some st /\ panics_because slots req st.
Proof.
  intros (HL & H8 & HC) HR HB RK H. destruct (reached_ok _ _ HR) as [ES W]. unfold responder_handle_msg in H.
  destruct (rsp_state R) as [st|] eqn:EST; [|auto]. right. exists st. split; [auto|]. rewrite ES in H.
  destruct (rsp_dispatch st slots rnd req (mkCtx rsp (rsp_transcript R))) as [r c] eqn:ED. destruct r as [[size st']|e|p0]; unfold rsp_finish in H.
  - exfalso. pose proof (dispatch_sound slots rnd req HB HL H8 HC st (mkCtx rsp (rsp_transcript R)) _ _ _ W RK ED) as (o & log' & SV & -> & L1 & R1 & W1 & G1).
    destruct (Nat.leb_spec (length o) (length (c_rsp c))) as [L2|L2]; [discriminate|]. rewrite R1, app_length in L2. lia.
  - exfalso. pose proof (C26_error_encodes e (c_rsp c)) as [W1 W2].
    change (write_msg Error_id (fun e => e) (error_write_body (responder_error_to_msg e)) (c_rsp c))
      with (write_error (responder_error_to_msg e) (c_rsp c)) in H.
    destruct (Nat.le_gt_cases (length (error_reply e)) (length (c_rsp c))) as [L|L].
    + rewrite (W1 L) in H. destruct (Nat.leb_spec (length (error_reply e)) (length (error_reply e ++ skipn (length (error_reply e)) (c_rsp c)))) as [|X]; [discriminate|].
      rewrite app_length in X. lia.
    + destruct (W2 L) as (e2 & k & -> & K1 & K2). rewrite K2 in H. discriminate.
  - exact (dispatch_panic slots rnd req HB HL H8 HC st (mkCtx rsp (rsp_transcript R)) _ _ W RK ED).
Qed.

(** A request that cannot make this responder panic: longer than a header and, if
    it is NEGOTIATE_ALGORITHMS, with no empty list, and such that the algorithms
    the responder will select are usable in this build. *)
Definition asym_usable (slots : list (option FilledSlot)) (a : N) : Prop :=
  exists ss, sig_len a = Some ss /\ ss <= MAX_SIGNATURE_SIZE /\
    forall filled r d, In (Some filled) slots -> fs_signer filled r d = Err tt \/ exists sg, fs_signer filled r d = Ok sg /\ length sg = ss.
Definition safe_request (slots : list (option FilledSlot)) (req : list N) : Prop :=
  2 < length req /\
  forall body na es, starts_with ([0x11; 0xE3]%N ++ body) req -> negotiate_fmt body na ->
    na_num_requests na = N.of_nat (length es) -> alg_array (na_requests na) es ->
    ~ empty_offer na es /\ (forall h, lowest_of (na_base_hash_algo na) h -> hash_usable h) /\
    (forall a, lowest_of (na_base_asym_algo na) a -> asym_usable slots a).
Definition safe_state (slots : list (option FilledSlot)) (st : RspStates) : Prop :=
  match st with
  | RspError => False
  | RspIdAuth s | RspChallenge s => hash_usable (al_base_hash (ri_algorithms s)) /\ asym_usable slots (al_base_asym (ri_algorithms s))
  | _ => True
  end.
Lemma session_safe slots ex R : setting slots -> session slots ex R -> Forall (safe_request slots) (map fst ex) ->
  exists st, rsp_state R = Some st /\ safe_state slots st.
Proof.
  intros HS H. induction H as [|R HR|ex R rnd req rsp out rsp' R' H IH HB RK HH]; intros F.
  - exists RspVersion. split; [reflexivity|exact I].
  - exists RspVersion. split; [reflexivity|exact I].
  - rewrite map_app in F. apply Forall_app in F as [F1 F2]. destruct (IH F1) as (st & E1 & SS).
    inversion F2 as [|? ? [SL SQ] _]; subst. cbn [fst] in *.
    destruct (step_sound slots R rnd req rsp out rsp' R' HS (session_reached _ _ _ H) HB RK HH) as (st0 & st' & log' & E0 & E2 & _ & SV & _).
    rewrite E1 in E0. injection E0 as <-. exists st'. split; [auto|].
    remember (t_get (rsp_transcript R)) as log0 eqn:EL. clear EL.
    destruct SV as [st log NE SW | s log ct flags own out SW OB NM FN EO
    | s log body na al es fs out SW NF AC EO | s log mask out SW L MS CF EO
    | s log slot off len out SW L1 L2 L3 CF EO | s log slot t nonce mask filled ss sg out SW NO NTH CF HU SL' LE MS EO SG LS]; try exact I; try exact SS.
    destruct AC as (A1 & A2 & _ & _ & _ & _ & A7 & _ & A9). destruct (SQ _ _ _ SW NF A1 A2) as (NEM & Q1 & Q2).
    cbn [safe_state ri_algorithms]. split.
    + apply Q1. destruct A7 as [|(_ & X & _)]; [auto|]. destruct NEM. left. auto.
    + apply Q2. destruct A9 as [|(_ & X & _)]; [auto|]. destruct NEM. right. left. auto.
Qed.
Theorem C32_no_panic_partial slots ex R rnd req rsp : setting slots -> session slots ex R ->
  Forall (safe_request slots) (map fst ex) -> bytes req -> safe_request slots req -> rnd_ok rnd ->
  exists out result rsp' R', responder_handle_msg R rnd req rsp = (Replied out result, rsp', R') /\
    forall p, result <> Panic p.
Proof.
  intros HS H F HB [L SQ] RK. destruct (session_safe _ _ _ HS H F) as (st & ES & SS).
  destruct (responder_handle_msg R rnd req rsp) as [[[out r|p] rsp'] R'] eqn:EH.
  - exists out, r, rsp', R'. split; [reflexivity|]. intros p ->. clear - EH. unfold responder_handle_msg in EH.
    destruct (rsp_state R); [|discriminate]. destruct (rsp_dispatch _ _ _ _ _) as [r0 c]. unfold rsp_finish in EH.
    destruct r0 as [[size st']|e|p0]; [destruct (_ <=? _); discriminate| |discriminate].
    destruct (write_msg _ _ _ _) as [[?|?|?] ?]; try discriminate. destruct (_ <=? _); discriminate.
  - exfalso. destruct (C32_panic_causes _ _ _ _ _ _ _ _ HS (session_reached _ _ _ H) HB RK EH) as [X|(st0 & E0 & PB)]; [congruence|].
    rewrite ES in E0. injection E0 as <-. destruct PB as [->|[X|PB]]; [exact SS|lia|].
    destruct st as [| |s|s|s|s]; try exact PB.
    + destruct PB as (_ & body & na & es & SW & NF & A1 & A2 & EO). destruct (SQ _ _ _ SW NF A1 A2) as (X & _). auto.
    + destruct PB as (_ & X & _). destruct SS. auto.
    + destruct PB as (_ & [X|[X|X]]); destruct SS as [S1 (ss & S2 & S3 & S4)].
      * auto.
      * specialize (X ss S2). lia.
      * destruct X as (filled & r & d & IN & [(p0 & X)|(sg & ss' & X & Y & Z)]).
        -- destruct (S4 filled r d IN) as [|(? & ? & _)]; congruence.
        -- destruct (S4 filled r d IN) as [|(? & ? & ?)]; congruence.
Qed.
End PropRspAns.

(** * Witnesses *)
#[local] Existing Instance sample_crypto.
(** [sample_cfg] without overflow checks (a release build). *)
Definition release_cfg : Config :=
  Build_Config 5 1024 4 4096 64 64 16 2 8 1024 (@CAPABILITIES sample_cfg) (@SIGNING_ALGOS sample_cfg) false true.
(** The sample NEGOTIATE_ALGORITHMS with byte [i] replaced: 8 is the signature
    algorithm mask, 12 the hash mask. *)
Definition negotiate_with (i : nat) (v : N) : list N := upd (sample_request 2) i v.


(** An empty hash offer: a release build selects a hash that was not offered ... *)
Theorem C28_empty_offer_refuted : exists na l R s,
  negotiate_algorithms_parse_body (cfg := release_cfg) (skipn 2 (negotiate_with 12 0)) = Ok na /\ na_base_hash_algo na = 0%N /\
  serve (cfg := release_cfg) 1 [sample_request 0; sample_request 1; negotiate_with 12 0] (responder_new (cfg := release_cfg) sample_slots) = Some (l, R) /\
  rsp_state R = Some (RspIdAuth s) /\ al_base_hash (ri_algorithms s) = 1%N.
Proof. eexists _, _, _, _. split; [vm_compute; reflexivity|]. split; [reflexivity|]. split; [vm_compute; reflexivity|]. split; vm_compute; reflexivity. Qed.

#[local] Existing Instance sample_cfg.
(** [reqs] are well-formed requests that are all answered, then [req] panics. *)
Definition panics_after (reqs : list (list N)) (req : list N) : Prop :=
  Forall (fun r => bytes r /\ 2 < length r) (req :: reqs) /\
  exists l R p rsp' R', serve 1 reqs sample_r0 = Some (l, R) /\ session sample_slots l R /\
    responder_handle_msg R (sample_rnd 1) req big_buf = (Panicked p, rsp', R').
Lemma panics_check reqs req : forallb (forallb (fun b => b <? 256)%N) (req :: reqs) = true ->
  forallb (fun r => 2 <? length r) (req :: reqs) = true -> (1 + N.of_nat (length reqs) < 256)%N ->
  (exists l R p rsp' R', serve 1 reqs sample_r0 = Some (l, R) /\
    responder_handle_msg R (sample_rnd 1) req big_buf = (Panicked p, rsp', R')) -> panics_after reqs req.
Proof.
  intros H1 H2 H3 (l & R & p & rsp' & R' & H4 & H5). apply bytes_all in H1. split.
  - rewrite forallb_forall in H2. rewrite Forall_forall in *. intros x HX. split; [auto|]. apply Nat.ltb_lt, H2, HX.
  - exists l, R, p, rsp', R'. split; [auto|]. split; [|auto].
    apply (serve_session reqs 1 [] sample_r0 l R H3); [inversion H1; auto|constructor|exact H4].
Qed.
Ltac panic_witness := apply panics_check; [reflexivity|reflexivity|reflexivity|];
  eexists _, _, _, _, _; split; [vm_compute; reflexivity|vm_compute; reflexivity].
(** ... a debug build panics. *)
Theorem C32_empty_offer_refuted : panics_after [sample_request 0; sample_request 1] (negotiate_with 12 0).
Proof. panic_witness. Qed.
(** Offering only SHA3-256 makes GET_DIGESTS panic. *)
Theorem C32_sha3_refuted : panics_after [sample_request 0; sample_request 1; negotiate_with 12 8] (sample_request 3).
Proof. panic_witness. Qed.
(** Offering RSASSA_2048 makes CHALLENGE panic. *)
Theorem C32_rsa_refuted : panics_after [sample_request 0; sample_request 1; negotiate_with 8 1; sample_request 4] (sample_request 5).
Proof. panic_witness. Qed.

(** With mutual authentication announced by both sides (the default
    configuration) CHALLENGE_AUTH names slot 0 whatever slot was asked for. *)
Definition challenge_slot (k : N) : list N := upd (sample_request 5) 2 k.
Theorem C31_mutual_auth_refuted : exists l R s out rsp' R',
  serve 1 (firstn 5 sample_requests) sample_r0 = Some (l, R) /\ rsp_state R = Some (RspChallenge s) /\ both_mutual s = true /\
  starts_with ([0x11; 0x83]%N ++ challenge_layout 3 MHNone (repeat 7%N 32)) (challenge_slot 3) /\
  responder_handle_msg R (sample_rnd 1) (challenge_slot 3) big_buf = (Replied out (Ok tt), rsp', R') /\
  nth 2 out 9%N = 0%N.
Proof.
  eexists _, _, _, _, _, _. split; [vm_compute; reflexivity|]. split; [vm_compute; reflexivity|]. split; [reflexivity|].
  split; [exists []; reflexivity|]. split; [vm_compute; reflexivity|]. reflexivity.
Qed.

(** * Concrete cases meeting the hypotheses *)
Lemma sample_session n : session sample_slots (served_ex (firstn n sample_requests)) (served_R (firstn n sample_requests)).
Proof.
  destruct n as [|[|[|[|[|[|n]]]]]]; [..|replace (firstn _ sample_requests) with sample_requests by (destruct n; reflexivity)];
  (apply served_session; [reflexivity|apply bytes_all; reflexivity|vm_compute; discriminate]).
Qed.
Example C28_example : reached sample_slots (served_R (firstn 2 sample_requests)) /\ bytes (sample_request 2) /\ code (sample_request 2) = 0xE3%N /\
  exists s, rsp_state (served_R (firstn 2 sample_requests)) = Some (RspAlgorithms s) /\
  exists out rsp' R', responder_handle_msg (served_R (firstn 2 sample_requests)) (sample_rnd 1) (sample_request 2) big_buf = (Replied out (Ok tt), rsp', R').
Proof.
  split; [exact (session_reached _ _ _ (sample_session 2))|]. split; [apply bytes_check; reflexivity|]. split; [reflexivity|].
  eexists. split; [vm_compute; reflexivity|]. eexists _, _, _. vm_compute. reflexivity.
Qed.
Example C29_example : reached sample_slots (served_R (firstn 3 sample_requests)) /\ bytes (sample_request 3) /\ code (sample_request 3) = 0x81%N /\
  exists s, rsp_state (served_R (firstn 3 sample_requests)) = Some (RspIdAuth s) /\
  exists out rsp' R', responder_handle_msg (served_R (firstn 3 sample_requests)) (sample_rnd 1) (sample_request 3) big_buf = (Replied out (Ok tt), rsp', R')
    /\ nth 3 out 0%N = 9%N.
Proof.
  split; [exact (session_reached _ _ _ (sample_session 3))|]. split; [apply bytes_check; reflexivity|]. split; [reflexivity|].
  eexists. split; [vm_compute; reflexivity|]. eexists _, _, _. split; vm_compute; reflexivity.
Qed.
Example C30_example : reached sample_slots (served_R (firstn 4 sample_requests)) /\ bytes (sample_request 4) /\
  starts_with ([0x11; 0x82]%N ++ get_certificate_layout 0 0 1024) (sample_request 4) /\
  exists s, rsp_state (served_R (firstn 4 sample_requests)) = Some (RspIdAuth s) /\
  exists out rsp' R', responder_handle_msg (served_R (firstn 4 sample_requests)) (sample_rnd 1) (sample_request 4) big_buf = (Replied out (Ok tt), rsp', R')
    /\ length out = 8 + length (chain_bytes (sample_chain 5)).
Proof.
  split; [exact (session_reached _ _ _ (sample_session 4))|]. split; [apply bytes_check; reflexivity|]. split; [exists []; reflexivity|].
  eexists. split; [vm_compute; reflexivity|]. eexists _, _, _. split; vm_compute; reflexivity.
Qed.
(** Asking for slot 7 of 5. *)
Example C30_invalid_example : starts_with ([0x11; 0x82]%N ++ get_certificate_layout 7 0 1024) (upd (sample_request 4) 2 7%N) /\
  NUM_SLOTS <= N.to_nat 7 /\ exists rsp' R',
  responder_handle_msg (served_R (firstn 4 sample_requests)) (sample_rnd 1) (upd (sample_request 4) 2 7%N) big_buf
  = (Replied [0x12; 0x7F; 0x01; 0]%N (Err RspInvalidSlot), rsp', R').
Proof. split; [exists []; reflexivity|]. split; [apply Nat.leb_le; reflexivity|]. eexists _, _. vm_compute. reflexivity. Qed.
Example C31_example : reached sample_slots (served_R (firstn 5 sample_requests)) /\ bytes (sample_request 5) /\ code (sample_request 5) = 0x83%N /\
  exists s, rsp_state (served_R (firstn 5 sample_requests)) = Some (RspChallenge s) /\
  exists out rsp' R', responder_handle_msg (served_R (firstn 5 sample_requests)) (sample_rnd 1) (sample_request 5) big_buf = (Replied out (Ok tt), rsp', R').
Proof.
  split; [exact (session_reached _ _ _ (sample_session 5))|]. split; [apply bytes_check; reflexivity|]. split; [reflexivity|].
  eexists. split; [vm_compute; reflexivity|]. eexists _, _, _. vm_compute. reflexivity.
Qed.
(** Slot 1 is empty. *)
Example C31_invalid_example : (forall filled, nth_error sample_slots (N.to_nat 1) <> Some (Some filled)) /\ exists rsp' R',
  responder_handle_msg (served_R (firstn 5 sample_requests)) (sample_rnd 1) (challenge_slot 1) big_buf
  = (Replied [0x12; 0x7F; 0x01; 0]%N (Err RspInvalidSlot), rsp', R').
Proof. split; [intros f; vm_compute; discriminate|]. eexists _, _. vm_compute. reflexivity. Qed.
(** All requests of the sample run are safe. *)
Example C32_example : Forall (safe_request sample_slots) sample_requests.
Proof.
  assert (X : forall req, forallb (fun b => b <? 256)%N req = true -> (2 <? length req) = true -> 
    (forall m, parse_header NegotiateAlgorithms_id req = Ok true -> negotiate_algorithms_parse_body (skipn 2 req) = Ok m ->
       (na_base_hash_algo m = 7 /\ na_base_asym_algo m = 0x10)%N /\ forall es, alg_array (na_requests m) es -> N.of_nat (length es) = na_num_requests m -> ~ Exists offer_empty es) ->
    safe_request sample_slots req).
  { intros req HB HL HM. apply bytes_check in HB. apply Nat.ltb_lt in HL. split; [auto|]. intros body na es (r & E1) NF N1 N2.
    destruct (HM na) as [[M1 M2] M3].
    - apply (header_true req KNegotiate); [auto|]. exists (body ++ r). rewrite E1. reflexivity.
    - rewrite E1. change (negotiate_algorithms_parse_body (body ++ r) = Ok na). apply C09_negotiate_parse; [|eauto].
      rewrite E1, <- app_assoc in HB. apply bytes_app in HB. tauto.
    - rewrite M1, M2. split; [|split].
      + intros [Y|[Y|Y]]; [rewrite M1 in Y; discriminate|rewrite M2 in Y; discriminate|]. exact (M3 es N2 (eq_sym N1) Y).
      + intros h HH. assert (lowest_of 7 1) as L1 by (exists 0%N; split; [reflexivity|]; split; [intros j; lia|reflexivity]).
        rewrite (lowest_unique _ _ _ HH L1). split; [reflexivity|]. split; [left; reflexivity|apply Nat.leb_le; reflexivity].
      + intros a HH. assert (lowest_of 0x10 0x10) as L1.
        { exists 4%N. split; [reflexivity|]. split; [|reflexivity]. intros j Hj. assert (j = 0 \/ j = 1 \/ j = 2 \/ j = 3)%N as [-> | [-> | [-> | ->]]] by lia; reflexivity. }
        rewrite (lowest_unique _ _ _ HH L1). exists 64. split; [reflexivity|]. split; [apply Nat.leb_le; reflexivity|].
        intros filled rr d HI. right. exists (repeat (toy_key d) 64). assert (E9 : fs_signer filled = toy_signer).
        { destruct HI as [HI|[HI|[HI|[HI|[HI|[]]]]]]; try discriminate HI; injection HI as <-; reflexivity. }
        rewrite E9. split; [reflexivity|apply repeat_length]. }
  repeat (apply Forall_cons; [apply X; [reflexivity|reflexivity|]; intros m PH PM; vm_compute in PH; try discriminate PH|]); [|constructor].
  vm_compute in PM. injection PM as <-. split; [split; reflexivity|]. cbn. intros es [A1 A2] LE.
  destruct es as [|a [|b [|c [|d [|e es]]]]]; cbn in LE; try lia. cbn in A2. injection A2 as <- <- <- <-.
  intros HE. repeat (inversion HE as [? ? Z|? ? Z]; clear HE; [discriminate Z|rename Z into HE]). inversion HE.
Qed.
