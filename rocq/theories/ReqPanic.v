(** When a requester step can panic. *)
From Verif Require Import Base BaseLemmas Config ConfigBuild Encoding MsgCommon MsgVersion MsgCapabilities MsgAlgorithms MsgDigest
     MsgCertificates MsgChallenge MsgError Transcript Crypto Responder Requester SpecWire SpecMsgs SpecResponder SpecRequester
     FlagLemmas GramBasic GramAlg GramDigest GramCert GramChal
     ReaderLogic PropTools PropTranscript PropVersionCaps PropAlg PropCerts PropChal PropGeneric PropTables PropDer RspParts RspStep RspPanic
     ReqStep ReqMsg PropRequester PropReqState.

#[local] Opaque chain_bytes.
#[local] Arguments Nat.leb : simpl never.
Section ReqPanic.
Context {cfg : Config} {cr : Crypto}.
Variable rsp : list N.
Hypothesis HB : bytes rsp.
Hypothesis HS : req_setting.
Hypothesis HL : 2 < length rsp.

Lemma req_expect_panic k p : req_expect (id_of k) rsp = Panic p -> False.
Proof.
  unfold req_expect. destruct (parse_header (id_of k) rsp) as [[]|e|q] eqn:E1; try discriminate.
  - destruct rsp; simpl in *; [lia|discriminate].
  - intros _. apply parse_header_panic in E1. lia.
Qed.
Lemma tr_extend_nopanic bs t p t' : t_wf t -> tr_extend bs t = (Panic p, t') -> False.
Proof.
  intros W. unfold tr_extend, map_err. destruct (t_extend_spec t bs W) as [H1 H2].
  destruct (Nat.le_gt_cases (t_len t + length bs) TRANSCRIPT_SIZE) as [L|L].
  - destruct (H1 L) as (t1 & -> & _). discriminate.
  - rewrite (H2 L). discriminate.
Qed.
Lemma tail_bytes a b r : rsp = a :: b :: r -> bytes r.
Proof. intros ->. inversion HB as [|? ? _ H]. now inversion H. Qed.


Lemma body_case {A} (k : list N -> T A) t p t' :
  bind (lift (body_of rsp)) k t = (Panic p, t') -> exists a b r, rsp = a :: b :: r /\ bytes r /\ k r t = (Panic p, t').
Proof.
  intros H. destruct rsp as [|a [|b r]] eqn:E; [simpl in HL; lia|simpl in HL; lia|]. exists a, b, r. split; [auto|]. split.
  - inversion HB as [|? ? _ H']. now inversion H'.
  - exact H.
Qed.
Lemma version_panic t p t' : t_wf t -> req_version_handle_msg rsp t = (Panic p, t') -> False.
Proof.
  intros W H. unfold req_version_handle_msg in H. change Version_id with (id_of KVersion) in H.
  apply bind_panic in H as [H|(u & t1 & X & H)]; [apply lift_panic in H; eapply req_expect_panic; eauto|].
  apply lift_inv in X as [_ ->]. apply body_case in H as (a & b & r & E & BR & H).
  apply bind_panic in H as [H|(v & t1 & X & H)].
  { apply map_err_lift_panic in H. eapply (nopanic_of _ _ rspec_version); eauto. }
  apply map_err_lift_inv in X as [X ->]. apply C07_version_parse in X; [|auto]. destruct X as (bs & r2 & E2 & es & VH & F & ->).
  destruct (@find_max_spec RequesterError v es VH F) as [(w & FM & _)|[FM _]]; unfold bind at 1, lift at 1 in H; rewrite FM in H.
  - apply bind_panic in H as [H|(u1 & t1 & X & H)]; [eapply tr_extend_nopanic; eauto|discriminate].
  - discriminate.
Qed.
Lemma capabilities_panic s t p t' : t_wf t -> qc_requester_ct s <> None -> qc_requester_cap s <> None ->
  req_cap_handle_msg s rsp t = (Panic p, t') -> False.
Proof.
  intros W S1 S2 H. unfold req_cap_handle_msg in H. change Capabilities_id with (id_of KCapabilities) in H.
  apply bind_panic in H as [H|(u & t1 & X & H)]; [apply lift_panic in H; eapply req_expect_panic; eauto|].
  apply lift_inv in X as [_ ->]. apply body_case in H as (a & b & r & E & BR & H).
  apply bind_panic in H as [H|(v & t1 & X & H)].
  { apply map_err_lift_panic in H. eapply (nopanic_of _ _ rspec_capabilities); eauto. }
  apply map_err_lift_inv in X as [X ->].
  apply bind_panic in H as [H|(u1 & t1 & Y & H)]; [eapply tr_extend_nopanic; eauto|].
  apply lift_panic in H. unfold req_alg_from in H. cbn in H. destruct (qc_requester_ct s), (qc_requester_cap s); congruence.
Qed.
Lemma algorithms_panic s t p t' : t_wf t -> st_ok (ReqAlgorithms s) -> qa_negotiate s <> None ->
  req_alg_handle_msg s rsp t = (Panic p, t') -> False.
Proof.
  intros W SO S1 H. unfold req_alg_handle_msg in H. change Algorithms_id with (id_of KAlgorithms) in H.
  apply bind_panic in H as [H|(u & t1 & X & H)]; [apply lift_panic in H; eapply req_expect_panic; eauto|].
  apply lift_inv in X as [_ ->]. apply body_case in H as (a & b & r & E & BR & H).
  apply bind_panic in H as [H|(v & t1 & X & H)].
  { apply map_err_lift_panic in H. eapply (nopanic_of _ _ rspec_algorithms); eauto. }
  apply map_err_lift_inv in X as [X ->]. apply C10_algorithms_parse in X; [|auto]. destruct X as (bs & r2 & E2 & FM).
  destruct (qa_negotiate s) as [na|] eqn:EN; [|congruence]. destruct (SO na EN) as (es & unused & N1 & N2).
  destruct (algorithms_fs bs v FM) as (fs & F1 & F2).
  destruct (ensure_valid_spec s na es unused bs v fs EN N1 N2 FM F1 F2) as [_ [V|V]]; unfold bind at 1, lift at 1 in H; rewrite V in H; [|discriminate].
  apply bind_panic in H as [H|(u1 & t1 & Y & H)]; [eapply tr_extend_nopanic; eauto|discriminate].
Qed.
Lemma digests_panic s t p t' : t_wf t -> known_hash (al_base_hash (qi_algorithms s)) -> hash_len (al_base_hash (qi_algorithms s)) <= MAX_DIGEST_SIZE ->
  handle_digests s rsp t = (Panic p, t') -> False.
Proof.
  intros W S1 S2 H. unfold handle_digests in H. change Digests_id with (id_of KDigests) in H.
  apply bind_panic in H as [H|(u & t1 & X & H)]; [apply lift_panic in H; eapply req_expect_panic; eauto|].
  apply lift_inv in X as [_ ->]. unfold bind at 1, lift at 1 in H. rewrite digest_size_run in H by auto.
  apply body_case in H as (a & b & r & E & BR & H).
  apply bind_panic in H as [H|(v & t1 & X & H)].
  { apply map_err_lift_panic in H. exact (nopanic_of _ _ (rspec_digests (proj1 HS) _) r BR p H). }
  apply map_err_lift_inv in X as [X ->].
  apply bind_panic in H as [H|(u1 & t1 & Y & H)]; [eapply tr_extend_nopanic; eauto|discriminate].
Qed.
Lemma certificate_panic s t p t' : t_wf t -> handle_certificate s rsp t = (Panic p, t') -> False.
Proof.
  intros W H. unfold handle_certificate in H. change Certificate_id with (id_of KCertificate) in H.
  apply bind_panic in H as [H|(u & t1 & X & H)]; [apply lift_panic in H; eapply req_expect_panic; eauto|].
  apply lift_inv in X as [_ ->]. apply body_case in H as (a & b & r & E & BR & H).
  apply bind_panic in H as [H|(v & t1 & X & H)].
  { apply map_err_lift_panic in H. eapply (nopanic_of _ _ rspec_certificate); eauto. }
  apply map_err_lift_inv in X as [X ->].
  apply bind_panic in H as [H|(u1 & t1 & Y & H)]; [eapply tr_extend_nopanic; eauto|discriminate].
Qed.

(** verify_cert_chain_and_signature *)
Lemma verify_panic s root m2 sig ss portion p : provider = ProviderRing -> In (al_base_asym (qh_algorithms s)) [0x10; 0x80]%N ->
  bytes (qh_cert_chain s) -> (qh_cert_chain_size s < 65536)%N ->
  sig_len (al_base_asym (qh_algorithms s)) = Some ss -> length sig = ss -> ss <= MAX_SIGNATURE_SIZE -> bytes sig ->
  portion = firstn (N.to_nat (qh_cert_chain_size s)) (qh_cert_chain s) -> N.to_nat (qh_cert_chain_size s) <= length (qh_cert_chain s) ->
  forall h, verify_cert_chain_and_signature s h m2 sig root UNIX_TIME = Panic p ->
  (chain_bad_tag h portion \/
   exists chain k, chain_trusted root (al_base_asym (qh_algorithms s)) h portion chain /\ length sig = 2 * k /\
     (be_val (firstn k sig) = 0%N \/ be_val (skipn k sig) = 0%N)).
Proof.
  intros PR IA BC CN SL LS LM BS EP LC h H. unfold verify_cert_chain_and_signature in H.
  destruct (Nat.ltb_spec (length (qh_cert_chain s)) (N.to_nat (qh_cert_chain_size s))); [lia|]. rewrite <- EP in H.
  assert (BL : bytes portion) by (rewrite EP; now apply bytes_firstn).
  destruct (chain_parse portion h) as [chain|e|q] eqn:EC; cbn [rmap_err rbind] in H; [|discriminate|].
  2: { left. apply C23_chain_panics_iff; eauto. }
  right. apply C13_chain_parse in EC as (C1 & C2 & C3); [|exact BL].
  unfold new_end_entity_cert, verify_chain_of_trust in H. rewrite PR in H.
  destruct (webpki_cert_ok (cc_leaf_cert chain)) eqn:K1; cbn [rmap_err rbind] in H; [|discriminate].
  destruct (webpki_anchor_ok root) eqn:K2; [|discriminate]. rewrite (webpki_run _ IA) in H. cbn [rbind] in H.
  destruct (webpki_chain_ok _ _ _ _ _) eqn:K3; cbn [rmap_err rbind] in H; [|discriminate].
  destruct (sig_len_even _ ss SL) as (k & EK). exists chain, k. split; [split; [auto|]; auto|]. split; [lia|].
  destruct (N.eq_dec (be_val (firstn k sig)) 0) as [Z|Z]; [auto|]. destruct (N.eq_dec (be_val (skipn k sig)) 0) as [Z2|Z2]; [auto|].
  exfalso. destruct (verify_signature _ _ _ _) as [[]|e|q] eqn:EV; try discriminate. 
  unfold verify_signature in EV. rewrite PR, (webpki_run _ IA) in EV. cbn [rbind] in EV. destruct HS as (_ & MS & _).
  assert (M2 : MAX_SIGNATURE_SIZE / 2 < 127) by (apply Nat.div_lt_upper_bound; lia).
  assert (M3 : (N.of_nat MAX_SIGNATURE_SIZE < 65000)%N) by lia.
  assert (M4 : length sig <= MAX_SIGNATURE_SIZE) by lia.
  assert (M5 : MAX_SIGNATURE_SIZE / 2 <> 127 /\ MAX_SIGNATURE_SIZE / 2 <> 255) by lia. destruct M5 as [M5 M6]. clear M2 MS.
  rewrite EK in LS. destruct (C43_bin_to_der sig k LS M4 M3 M5 M6 BS Z Z2) as (n & o & E1 & E2 & E3 & E4). rewrite E1 in EV.
  destruct (Nat.leb_spec n (length o)); [discriminate|lia].
Qed.
Lemma verify_panics s root m2 sig ss portion h : provider = ProviderRing -> In (al_base_asym (qh_algorithms s)) [0x10; 0x80]%N ->
  bytes (qh_cert_chain s) -> (qh_cert_chain_size s < 65536)%N ->
  sig_len (al_base_asym (qh_algorithms s)) = Some ss -> length sig = ss -> ss <= MAX_SIGNATURE_SIZE -> bytes sig ->
  portion = firstn (N.to_nat (qh_cert_chain_size s)) (qh_cert_chain s) -> N.to_nat (qh_cert_chain_size s) <= length (qh_cert_chain s) ->
  (chain_bad_tag h portion \/
   exists chain k, chain_trusted root (al_base_asym (qh_algorithms s)) h portion chain /\ length sig = 2 * k /\
     (be_val (firstn k sig) = 0%N \/ be_val (skipn k sig) = 0%N)) ->
  exists p, verify_cert_chain_and_signature s h m2 sig root UNIX_TIME = Panic p.
Proof.
  intros PR IA BC CN SL LS LM BS EP LC H. unfold verify_cert_chain_and_signature.
  destruct (Nat.ltb_spec (length (qh_cert_chain s)) (N.to_nat (qh_cert_chain_size s))); [lia|]. rewrite <- EP.
  assert (BL : bytes portion) by (rewrite EP; now apply bytes_firstn).
  assert (LL0 : (N.of_nat (length portion) < 65536)%N) by (rewrite EP, firstn_length; lia).
  destruct H as [H|(chain & k & (C1 & C2 & K1 & K2 & K3) & LK & Z)].
  - apply C23_chain_panics_iff in H as (p & E); [|auto]. rewrite E. cbn. eauto.
  - rewrite (proj2 (C13_chain_parse h portion chain BL)) by auto. cbn [rmap_err rbind].
    unfold new_end_entity_cert, verify_chain_of_trust. rewrite PR, K1. cbn [rmap_err rbind].
    change trust_time with UNIX_TIME in K3. rewrite K2, (webpki_run _ IA). cbn [rbind]. rewrite K3. cbn [rmap_err rbind].
    unfold verify_signature. rewrite PR, (webpki_run _ IA). cbn [rbind].
    destruct (C43_zero_half_panics sig k (repeat 0%N max_encoded_size) LK Z) as (p & EP2).
    destruct (bin_to_der sig (repeat 0%N max_encoded_size)) as [r0 o0]. cbn [fst] in EP2. subst r0. cbn. eauto.
Qed.

Lemma challenge_panic s root t p t' ss : t_wf t -> st_ok (ReqChallenge s) ->
  hash_usable (al_base_hash (qh_algorithms s)) -> In (al_base_asym (qh_algorithms s)) [0x10; 0x80]%N ->
  sig_len (al_base_asym (qh_algorithms s)) = Some ss -> ss <= MAX_SIGNATURE_SIZE ->
  req_chal_handle_msg s root rsp t = (Panic p, t') -> challenge_panics root s (t_get t) rsp.
Proof.
  intros W (SB & SL & SN) U IA HS1 HS2 H. unfold req_chal_handle_msg in H. change ChallengeAuth_id with (id_of KChallengeAuth) in H.
  pose proof HS as (H8 & MS & HC). pose proof U as (PR & S2 & LH).
  assert (KH : known_hash (al_base_hash (qh_algorithms s))) by (unfold known_hash; destruct S2 as [E|[E|E]]; rewrite E; simpl; auto).
  apply bind_panic in H as [H|(u & t1 & X & H)]; [exfalso; apply lift_panic in H; eapply req_expect_panic; eauto|].
  apply lift_inv in X as [X ->]. destruct u. apply req_expect_inv in X. apply header_iff in X as [_ (r0 & E0)].
  unfold bind at 1, lift at 1 in H. rewrite digest_size_run in H by auto.
  unfold bind at 1, lift at 1 in H. rewrite (sig_size_of _ _ HS1) in H. unfold signature_size in H.
  destruct (Nat.leb_spec ss MAX_SIGNATURE_SIZE); [|lia].
  apply body_case in H as (a & b & r & E & BR & H). rewrite E0 in E. injection E as <- <- <-.
  apply bind_panic in H as [H|(m & t1 & X & H)].
  { left. apply map_err_lift_panic in H. exists r0. split; [exact E0|]. apply (C23_challenge_auth_panics_iff _ ss); eauto. }
  right. apply map_err_lift_inv in X as [X ->]. apply C15_challenge_auth_parse in X; [|auto].
  destruct X as (bs & r & E2 & rsvd & olen & RV & OL & FO & ->). exists m, rsvd, olen, ss.
  destruct (N.eqb_spec (ca_slot m) (qh_cert_slot s)) as [ESL|]; cbn [negb] in H; [|discriminate].
  pose proof FO as (F1 & F2 & F3 & F4 & F5 & F6 & F7).
  assert (E3 : rsp = ([0x11; 0x03]%N ++ ca_bytes rsvd olen m) ++ r) by (rewrite E0, E2; reflexivity).
  split; [auto|]. split; [exists r; exact E3|]. split; [auto|]. split; [auto|]. split; [auto|]. split; [auto|].
  assert (NP : (ca_slot m =? PROVISIONED_MASK)%N = false) by (apply N.eqb_neq; unfold PROVISIONED_MASK; lia).
  rewrite NP in H. cbn [negb] in H.
  apply bind_panic in H as [H|([] & t1 & X & H)].
  { left. apply bind_panic in H as [H|(b & t1 & X & H)].
    - apply lift_panic in H. unfold shl8, shamt8 in H. destruct (Nat.ltb_spec (N.to_nat (ca_slot m)) 8) as [L|L]; [discriminate|].
      destruct overflow_checks; [|discriminate]. split; [auto|lia].
    - destruct (_ =? 0)%N; discriminate. }
  right. apply bind_inv in X as (b & t2 & Y & X). apply lift_inv in Y as [Y ->].
  destruct (N.land (ca_slot_mask m) b =? 0)%N eqn:EB; [discriminate|]. injection X as <-.
  apply (slot_bit_inv (ca_slot m) (ca_slot_mask m) b) in Y as [TB OC]; [|lia|exact EB]. split; [auto|].
  destruct (Nat.ltb_spec (length (qh_cert_chain s)) (N.to_nat (qh_cert_chain_size s))) as [|LC]; [lia|].
  rewrite (bind_run (ret tt) _ _ tt _ eq_refl) in H.
  rewrite (bind_run _ _ _ _ _ (lift_run _ _ _ (digest_usable _ _ HC U))) in H.
  destruct (list_eqb (ca_cert_chain_hash m) (sha (al_base_hash (qh_algorithms s)) (firstn (N.to_nat (qh_cert_chain_size s)) (qh_cert_chain s)))) eqn:EQ;
    cbn [negb] in H; [|discriminate]. apply list_eqb_iff in EQ. split; [auto|].
  destruct (ca_sig_suffix rsp HB rsvd olen m r ss E3 F7) as [BS LR].
  destruct (Nat.ltb_spec (length rsp) ss); [lia|].
  rewrite (bind_run (ret tt) _ _ tt _ eq_refl) in H.
  apply bind_panic in H as [H|([] & t1 & X & H)]; [exfalso; eapply tr_extend_nopanic; eauto|].
  apply tr_extend_inv in X as [W1 G1]; [|exact W].
  split. { assert (X : length (t_get t1) <= TRANSCRIPT_SIZE) by (destruct W1 as [Y1 Y2]; unfold t_get; rewrite firstn_length; lia).
    rewrite G1, app_length, firstn_length in X. lia. }
  rewrite (bind_run (gets _) _ _ _ _ eq_refl) in H. rewrite (bind_run _ _ _ _ _ (lift_run _ _ _ (digest_usable _ _ HC U))) in H.
  apply lift_panic in H. eapply verify_panic; eauto.
Qed.
Lemma challenge_panics_run s root t ss : t_wf t -> st_ok (ReqChallenge s) ->
  hash_usable (al_base_hash (qh_algorithms s)) -> In (al_base_asym (qh_algorithms s)) [0x10; 0x80]%N ->
  sig_len (al_base_asym (qh_algorithms s)) = Some ss -> ss <= MAX_SIGNATURE_SIZE ->
  challenge_panics root s (t_get t) rsp -> exists p t', req_chal_handle_msg s root rsp t = (Panic p, t').
Proof.
  intros W (SB & SL & SN) U IA HS1 HS2 H. unfold req_chal_handle_msg. change ChallengeAuth_id with (id_of KChallengeAuth).
  pose proof HS as (H8 & MS & HC). pose proof U as (PR & S2 & LH).
  assert (KH : known_hash (al_base_hash (qh_algorithms s))) by (unfold known_hash; destruct S2 as [E|[E|E]]; rewrite E; simpl; auto).
  assert (SW : exists body, rsp = [0x11; 0x03]%N ++ body).
  { destruct H as [(r & E & _)|(m & rsvd & olen & ss' & _ & (r & E) & _)]; [eauto|]. exists (ca_bytes rsvd olen m ++ r). now rewrite E, <- app_assoc. }
  destruct SW as (body & E0).
  rewrite (bind_run _ _ _ _ _ (req_expect_run KChallengeAuth rsp t HL (ex_intro _ body E0))).
  rewrite (bind_run _ _ _ _ _ (lift_run _ _ _ (digest_size_run _ KH LH))).
  rewrite (bind_run _ _ _ ss t).
  2: { apply lift_run. rewrite (sig_size_of _ _ HS1). unfold signature_size. destruct (Nat.leb_spec ss MAX_SIGNATURE_SIZE); [auto|lia]. }
  rewrite (t_body_run rsp HB _ 0x11%N 0x03%N body) by exact E0.
  assert (BB : bytes body) by (rewrite E0 in HB; now apply bytes_app in HB).
  destruct H as [(r & E & OV)|(m & rsvd & olen & ss' & EQS & (r & E1) & RV & OL & FO & ESL & H)].
  { rewrite E0 in E. apply app_inv_head in E. subst r. apply (C23_challenge_auth_panics_iff _ ss) in OV as (p & E); [|auto].
    unfold bind at 1, map_err, lift. rewrite E. cbn [rmap_err]. eauto. }
  rewrite HS1 in EQS. injection EQS as <-. 
  assert (body = ca_bytes rsvd olen m ++ r) as -> by (rewrite E0, <- app_assoc in E1; now apply app_inv_head in E1).
  pose proof FO as (F1 & F2 & F3 & F4 & F5 & F6 & F7).
  rewrite (t_parse_run rsp HB _ _ _ _ _ _ _ r m _ E1 (C15_challenge_auth_parse _ _)) by (exists rsvd, olen; auto).
  rewrite ESL, N.eqb_refl. cbn [negb].
  assert (NP : (qh_cert_slot s =? PROVISIONED_MASK)%N = false) by (apply N.eqb_neq; unfold PROVISIONED_MASK; lia).
  rewrite NP. cbn [negb].
  assert (D : (overflow_checks = true /\ ca_slot m = 8%N) \/ (overflow_checks = true -> (ca_slot m < 8)%N)).
  { destruct overflow_checks; [|right; discriminate]. destruct (N.eq_dec (ca_slot m) 8); [auto|right; intros _; lia]. }
  destruct D as [[D1 D2]|OC].
  { rewrite <- ESL, D2. assert (P : @shl8 RequesterError overflow_checks 1 (N.to_nat 8) = Panic POverflow) by (rewrite D1; reflexivity).
    exists POverflow, t. unfold bind at 1. unfold bind at 1. unfold lift at 1. rewrite P. reflexivity. }
  destruct H as [[D1 D2]|(TB & EQ & LT & VP)]; [specialize (OC D1); lia|].
  destruct (slot_bit_spec (qh_cert_slot s) (ca_slot_mask m)) as (b & B1 & B2); [lia|rewrite <- ESL; exact OC|].
  rewrite (bind_run _ _ _ tt t).
  2: { rewrite (bind_run _ _ _ _ _ (lift_run _ _ _ B1)). rewrite <- ESL in B2. rewrite (proj2 B2 TB). reflexivity. }
  destruct (Nat.ltb_spec (length (qh_cert_chain s)) (N.to_nat (qh_cert_chain_size s))); [lia|].
  rewrite (bind_run (ret tt) _ _ tt _ eq_refl).
  rewrite (bind_run _ _ _ _ _ (lift_run _ _ _ (digest_usable _ _ HC U))).
  rewrite (proj2 (list_eqb_iff _ _) EQ). cbn [negb].
  destruct (ca_sig_suffix rsp HB rsvd olen m r ss E1 F7) as [BS LR].
  destruct (Nat.ltb_spec (length rsp) ss); [lia|].
  destruct (tr_extend_run (firstn (length rsp - ss) rsp) t W) as (t1 & X & W1 & G1).
  { rewrite app_length, firstn_length. lia. }
  rewrite (bind_run (ret tt) _ _ tt _ eq_refl). rewrite (bind_run _ _ _ _ _ X).
  rewrite (bind_run (gets _) _ _ _ _ eq_refl). rewrite (bind_run _ _ _ _ _ (lift_run _ _ _ (digest_usable _ _ HC U))).
  unfold lift. destruct (verify_panics s root (sha (al_base_hash (qh_algorithms s)) (t_get t1)) (ca_signature m) ss _ _ PR IA SB SN HS1 F7 HS2 BS eq_refl SL VP) as (p & EP).
  rewrite EP. eauto.
Qed.
End ReqPanic.
