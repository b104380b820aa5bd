(** C82: what the endpoints ask of the cryptographic functions, and that they use
    nothing else of them. *)
From Verif Require Import Base BaseLemmas Config Encoding MsgCommon MsgVersion MsgCapabilities MsgAlgorithms MsgDigest
     MsgCertificates MsgChallenge MsgError Transcript Crypto Responder Requester SpecWire SpecMsgs SpecResponder SpecRequester
     SpecCryptoUse FlagLemmas PropTools PropTranscript PropVersionCaps PropAlg PropCerts PropChal PropGeneric PropTables PropDer
     RspParts RspStep PropResponder ReqStep ReqMsg PropRequester PropReqVerdict Sample SampleRun SampleReq PropRspState.

#[local] Opaque chain_bytes.
#[local] Arguments Nat.leb : simpl never.

(** Two programs in lockstep. *)
Lemma lockstep {St E A B} (m1 m2 : M St E A) (k1 k2 : A -> M St E B) s :
  m1 s = m2 s -> (forall a s1, m1 s = (Ok a, s1) -> k1 a s1 = k2 a s1) -> bind m1 k1 s = bind m2 k2 s.
Proof. unfold bind. intros <- HK. destruct (m1 s) as [[a|e|p] s1]; auto. Qed.
Lemma lockstep_lift {St E A B} (r1 r2 : res E A) (k1 k2 : A -> M St E B) s :
  r1 = r2 -> (forall a, r1 = Ok a -> k1 a s = k2 a s) -> bind (lift r1) k1 s = bind (lift r2) k2 s.
Proof. unfold bind, lift. intros <- HK. destruct r1 as [a|e|p]; auto. Qed.

Section Alike.
Context {cfg : Config}.
Variables k k' : Crypto.

Lemma digest_alike {E} h data : @provider k = @provider k' -> @sha k h data = @sha k' h data ->
  @provided_digest cfg k E h data = @provided_digest cfg k' E h data.
Proof. unfold provided_digest. intros <- <-. reflexivity. Qed.

Lemma hash_chains_alike h chains : @provider k = @provider k' ->
  (forall c, In (Some c) chains -> @sha k h (chain_bytes c) = @sha k' h (chain_bytes c)) ->
  forall buf, length buf = MAX_CERT_CHAIN_SIZE -> @hash_cert_chains cfg k h chains buf = @hash_cert_chains cfg k' h chains buf.
Proof.
  intros HP. induction chains as [|[c|] chains IH]; intros HS buf LB; [reflexivity| |].
  - cbn [hash_cert_chains]. destruct (chain_fits_dec c) as [F|F].
    2: { destruct (chain_write_unfit c _ LB F) as (e & b' & E3). rewrite E3. reflexivity. }
    rewrite chain_write_fits by auto. cbn [rmap_err rbind]. destruct (_ <? _); [reflexivity|].
    rewrite firstn_app_exact by reflexivity.
    rewrite (digest_alike h (chain_bytes c) HP (HS c (or_introl eq_refl))).
    rewrite IH; [reflexivity| |].
    + intros c' HI. apply HS. right. exact HI.
    + destruct F as [F1 F2]. rewrite app_length, skipn_length. lia.
  - cbn [hash_cert_chains]. rewrite IH; [reflexivity| |exact LB]. intros c' HI. apply HS. right. exact HI.
Qed.

(** * The responder *)
Variables slots slots' : list (option FilledSlot).
Variable rnd : Rnd.
Variable req : list N.
Hypothesis Hreq : bytes req.
Hypothesis Hslots : length slots = NUM_SLOTS.
Hypothesis H8 : NUM_SLOTS <= 8.
Hypothesis HC : @hash_contract k.
Hypothesis HP : @provider k = @provider k'.
Hypothesis Hrnd : rnd_ok rnd.

Lemma slots_chains Q : slots_alike Q slots slots' -> map (option_map fs_chain) slots = map (option_map fs_chain) slots'.
Proof.
  clear. revert slots' Q. induction slots as [|o l IH]; intros [|o' l'] Q (L & A); try discriminate; [reflexivity|].
  cbn [map]. f_equal.
  - specialize (A 0). cbn [nth_error] in A. destruct o as [f|], o' as [f'|]; try contradiction; [|reflexivity]. cbn. f_equal. apply A.
  - apply (IH l' (fun q => match q with SignWith i r m => Q (SignWith (S i) r m) | _ => Q q end)). split; [now injection L|].
    intros i. specialize (A (S i)). exact A.
Qed.
Lemma mask_from_map {E} l : forall i bits, @create_slot_mask_from cfg E _ i (map (option_map fs_chain) l) bits = create_slot_mask_from i l bits.
Proof.
  induction l as [|[f|] l IH]; intros i bits; [reflexivity| |].
  - cbn [map option_map create_slot_mask_from]. destruct (shl8 _ _ _); [|reflexivity|reflexivity]. cbn [rbind]. apply IH.
  - cbn [map option_map create_slot_mask_from]. apply IH.
Qed.
Lemma mask_alike {E} Q : slots_alike Q slots slots' -> @create_slot_mask cfg E _ slots = create_slot_mask slots'.
Proof. intros A. unfold create_slot_mask. rewrite <- !mask_from_map. now rewrite (slots_chains Q A). Qed.

Lemma id_auth_alike s c :
  (starts_with [0x11; 0x81]%N req -> forall i ch, slot_chain slots i = Some ch ->
     @sha k (al_base_hash (ri_algorithms s)) (chain_bytes ch) = @sha k' (al_base_hash (ri_algorithms s)) (chain_bytes ch)) ->
  @id_auth_handle_msg cfg k s (map (option_map fs_chain) slots) req c = @id_auth_handle_msg cfg k' s (map (option_map fs_chain) slots) req c.
Proof.
  intros HH. unfold id_auth_handle_msg, reset_on_get_version. destruct (parse_header GetVersion_id req) as [[]| |]; try reflexivity.
  apply lockstep; [reflexivity|]. intros [] c1 H1; [|reflexivity].
  apply map_err_lift_inv in H1 as [H1 ->]. change GetDigests_id with (id_of KGetDigests) in H1. apply header_iff in H1 as [_ H1].
  specialize (HH H1). unfold handle_get_digests. apply lockstep; [reflexivity|]. intros m c1 _.
  apply lockstep_lift; [|reflexivity]. apply hash_chains_alike; [exact HP| |apply repeat_length].
  intros ch HI. apply In_nth_error in HI as (i & HI). apply (HH i). now apply slot_chain_map.
Qed.

Lemma challenge_alike s c : t_wf (c_tr c) ->
  (forall slot t nonce filled filled' mask,
      starts_with ([0x11; 0x83]%N ++ challenge_layout slot t nonce) req -> nonce_ok nonce ->
      nth_error slots (N.to_nat slot) = Some (Some filled) -> nth_error slots' (N.to_nat slot) = Some (Some filled') ->
      mask_of_slots slots mask ->
      let h := al_base_hash (ri_algorithms s) in
      let signed := t_get (c_tr c) ++ req ++ @unsigned_auth k s slots slot mask (wire_nonce (rnd_nonce rnd)) in
      @sha k h (chain_bytes (fs_chain filled)) = @sha k' h (chain_bytes (fs_chain filled)) /\
      @sha k h signed = @sha k' h signed /\
      fs_signer filled (rnd_sign rnd) (@sha k h signed) = fs_signer filled' (rnd_sign rnd) (@sha k h signed)) ->
  slots_alike (fun _ => False) slots slots' ->
  @challenge_handle_msg cfg k s slots rnd req c = @challenge_handle_msg cfg k' s slots' rnd req c.
Proof.
  intros W HA SA. unfold challenge_handle_msg, reset_on_get_version. destruct (parse_header GetVersion_id req) as [[]| |]; try reflexivity.
  apply lockstep; [reflexivity|]. intros [] c1 H1.
  apply lift_inv in H1 as [H1 ->]. change Challenge_id with (id_of KChallenge) in H1. apply expect_inv in H1.
  apply header_iff in H1 as [L (rest & E0)].
  apply lockstep_lift; [reflexivity|]. intros ds HD.
  apply lockstep_lift; [reflexivity|]. intros ss HS. apply sig_size_inv in HS as [HS1 HS2].
  apply lockstep_lift; [reflexivity|]. intros body H1.
  rewrite E0 in H1. change ([version_of KChallenge; code_of KChallenge] ++ rest) with (0x11 :: 0x83 :: rest)%N in H1.
  rewrite body_of_run in H1. injection H1 as <-.
  apply lockstep; [reflexivity|]. intros m c1 H1. apply map_err_lift_inv in H1 as [H1 ->].
  apply C14_challenge_parse in H1; [|rewrite E0 in Hreq; apply bytes_app in Hreq; tauto].
  destruct H1 as (bs & r & E2 & NK & ->).
  unfold slot_get. pose proof (proj2 SA (N.to_nat (ch_slot m))) as SI.
  destruct (nth_error slots (N.to_nat (ch_slot m))) as [[filled|]|] eqn:EN;
    destruct (nth_error slots' (N.to_nat (ch_slot m))) as [[filled'|]|] eqn:EN'; try contradiction; try reflexivity.
  cbn [of_option]. rewrite !(bind_run _ _ _ _ _ (lift_run (Ok _) c _ eq_refl)).
  destruct SI as [SC _]. rewrite <- SC.
  destruct (@mask_ok cfg ResponderError slots ltac:(lia)) as (mask & M1 & M2).
  specialize (HA (ch_slot m) _ (ch_nonce m) filled filled' mask (ex_intro _ r (eq_trans E0 (f_equal _ E2))) NK EN EN' M2). cbv zeta in HA.
  destruct HA as (A1 & A2 & A3).
  assert (LZ : length (repeat 0%N MAX_CERT_CHAIN_SIZE) = MAX_CERT_CHAIN_SIZE) by apply repeat_length.
  destruct (chain_fits_dec (fs_chain filled)) as [F|F].
  2: { destruct (chain_write_unfit (fs_chain filled) _ LZ F) as (e & b' & E3). rewrite E3. reflexivity. }
  rewrite chain_write_fits by auto. cbn [rmap_err rbind]. destruct (_ <? _); [reflexivity|].
  rewrite firstn_app_exact by reflexivity.
  apply lockstep_lift; [apply digest_alike; auto|]. intros dg H1.
  apply digest_inv in H1 as [U ->]; [|exact HC]. pose proof U as (_ & S2 & LH).
  rewrite digest_size_of in HD by exact S2. unfold digest_size in HD.
  destruct (Nat.leb_spec (hash_len (al_base_hash (ri_algorithms s))) MAX_DIGEST_SIZE); [|lia]. injection HD as <-.
  apply lockstep; [reflexivity|]. intros u3 c1 H1. apply c_extend_inv in H1; [|exact W]. destruct H1 as (R1 & W1 & G1).
  rewrite <- (mask_alike (fun _ => False) SA).
  apply lockstep_lift; [reflexivity|]. intros mask' H1. rewrite M1 in H1. injection H1 as <-.
  apply lockstep_lift; [reflexivity|]. intros auth H1.
  unfold challenge_auth_new in H1.
  destruct (digest_size (length (sha _ _))) as [?|?|?]; try discriminate. cbn [rbind] in H1.
  destruct (digest_size (length (repeat _ _))) as [?|?|?]; try discriminate. cbn [rbind] in H1.
  destruct (signature_size _) as [?|?|?]; try discriminate. cbn [rbind] in H1. injection H1 as <-.
  rewrite mutual_eq.
  assert (EA : @slot_chain_digest k (al_base_hash (ri_algorithms s)) slots (N.to_nat (ch_slot m)) =
               @sha k (al_base_hash (ri_algorithms s)) (chain_bytes (fs_chain filled))).
  { unfold slot_chain_digest, slot_chain_bytes, slot_chain. now rewrite EN. }
  rewrite <- EA. fold (zeros (hash_len (al_base_hash (ri_algorithms s)))). fold (zeros ss).
  fold (@auth_of cfg k slots rnd s (ch_slot m) mask ss).
  apply lockstep; [reflexivity|]. intros n c2 H1.
  eapply c_write_inv in H1; [|exact (@auth_writes cfg k slots rnd Hslots H8 HC s _ mask ss _ Hrnd M2 EN S2)].
  destruct H1 as (-> & L1 & ->). rewrite R1 in *.
  remember (@unsigned_auth k s slots (ch_slot m) mask (wire_nonce (rnd_nonce rnd))) as ua eqn:EUA.
  assert (LA : length (ua ++ zeros ss) = length ua + ss) by (rewrite app_length; unfold zeros; now rewrite repeat_length).
  apply lockstep; [reflexivity|]. intros [] c2 H1.
  destruct (Nat.ltb_spec (length (ua ++ zeros ss)) ss); [lia|]. injection H1 as <-.
  replace (length (ua ++ zeros ss) - ss) with (length ua) by lia.
  apply lockstep; [reflexivity|]. intros o c2 H1. apply c_prefix_inv in H1 as [-> ->].
  cbn [c_rsp]. rewrite <- app_assoc, firstn_app_exact by reflexivity.
  apply lockstep; [reflexivity|]. intros u4 c2 H1. apply c_extend_inv in H1; [|exact W1]. destruct H1 as (R3 & W3 & G3).
  cbn [c_tr c_rsp] in R3, G3.
  apply lockstep; [reflexivity|]. intros tr c3 H1. unfold gets in H1. injection H1 as <- <-.
  assert (ET : t_get (c_tr c2) = t_get (c_tr c) ++ req ++ ua) by (rewrite G3, G1; now rewrite <- app_assoc).
  rewrite ET. apply lockstep_lift; [apply digest_alike; auto|]. intros hh H1. apply digest_inv in H1 as [_ ->]; [|exact HC].
  rewrite A3. reflexivity.
Qed.
End Alike.

Definition with_slots (R : Responder) (slots : list (option FilledSlot)) : Responder :=
  mkResponder slots (rsp_transcript R) (rsp_state R).
Lemma slots_alike_weaken (Q Q' : query -> Prop) slots slots' : (forall q, Q' q -> Q q) -> slots_alike Q slots slots' -> slots_alike Q' slots slots'.
Proof.
  intros HQ (L & A). split; [exact L|]. intros i. specialize (A i).
  destruct (nth_error slots i) as [[f|]|], (nth_error slots' i) as [[f'|]|]; auto. destruct A as [A1 A2]. split; auto.
Qed.
Lemma alike_weaken (Q Q' : query -> Prop) k k' : (forall q, Q' q -> Q q) -> alike Q k k' -> alike Q' k k'.
Proof. intros HQ (A0 & A1 & A2 & A3 & A4 & A5). repeat split; auto. Qed.

Section ResponderUse.
Context {cfg : Config}.

(** One call: with a second library and second keys that answer the questions of
    [rsp_asks] alike, the reply, the contents of the buffer, the transcript and the
    state are the same. *)
Theorem C82_responder_call k k' slots slots' R rnd req rsp reply out R1 :
  @setting cfg k slots -> @reached cfg k slots R -> bytes req -> rnd_ok rnd ->
  alike (@rsp_asks cfg k R rnd req) k k' -> slots_alike (@rsp_asks cfg k R rnd req) slots slots' ->
  @responder_handle_msg cfg k R rnd req rsp = (reply, out, R1) ->
  @responder_handle_msg cfg k' (with_slots R slots') rnd req rsp = (reply, out, with_slots R1 slots').
Proof.
  intros (HL & H8 & HC) HR HB RK AK AS H. destruct (@reached_ok cfg k slots R HR) as [ES W].
  unfold responder_handle_msg in *. cbn [rsp_state with_slots rsp_slots rsp_transcript].
  destruct (rsp_state R) as [st|] eqn:EST; [|injection H as <- <- <-; reflexivity].
  assert (HD : @rsp_dispatch cfg k st (rsp_slots R) rnd req (mkCtx rsp (rsp_transcript R)) =
               @rsp_dispatch cfg k' st slots' rnd req (mkCtx rsp (rsp_transcript R))).
  2: { rewrite <- HD. destruct (rsp_dispatch _ _ _ _ _) as [r c]. destruct (rsp_finish r (c_rsp c)) as [[a b] st'].
       injection H as <- <- <-. reflexivity. }
  rewrite ES. destruct st as [| |s|s|s|s]; try reflexivity.
  - cbn [rsp_dispatch]. rewrite <- (slots_chains slots slots' _ AS). apply id_auth_alike; [apply AK|].
    intros SW i ch HI. apply AK. unfold rsp_asks. rewrite EST, ES. split; [exact SW|]. eauto.
  - cbn [rsp_dispatch]. apply challenge_alike; auto; [apply AK| |eapply slots_alike_weaken; [|exact AS]; tauto].
    intros slot t nonce filled filled' mask SW NK EN EN' MK h signed.
    assert (Q : forall q, q = HashOf h (chain_bytes (fs_chain filled)) \/ q = HashOf h signed \/
                q = SignWith (N.to_nat slot) (rnd_sign rnd) (@sha k h signed) -> @rsp_asks cfg k R rnd req q).
    { intros q HQ. unfold rsp_asks. rewrite EST, ES. exists slot, t, nonce, filled, mask. auto. }
    destruct AK as (_ & AK & _). split; [|split].
    + apply AK, Q. auto.
    + apply AK, Q. auto.
    + pose proof (proj2 AS (N.to_nat slot)) as AI. rewrite EN, EN' in AI. apply AI, Q. auto.
Qed.

(** A whole life: everything the user sees is the same. *)
Theorem C82_responder_history k k' slots slots' calls :
  @setting cfg k slots -> Forall call_ok calls ->
  alike (@rsp_asks_in cfg k (responder_new slots) calls) k k' ->
  slots_alike (@rsp_asks_in cfg k (responder_new slots) calls) slots slots' ->
  @observed cfg k (responder_new slots) calls = @observed cfg k' (responder_new slots') calls.
Proof.
  intros ST F AK AS.
  assert (G : forall calls R, @reached cfg k slots R -> Forall call_ok calls ->
    alike (@rsp_asks_in cfg k R calls) k k' -> slots_alike (@rsp_asks_in cfg k R calls) slots slots' ->
    @observed cfg k R calls = @observed cfg k' (with_slots R slots') calls).
  { clear calls F AK AS. induction calls as [|c calls IH]; intros R HR F AK AS; [reflexivity|].
    inversion F as [|c0 l0 HK F' E0]; subst.
    assert (HW : forall q, @rsp_asks_in cfg k (@after_call cfg k R c) calls q -> @rsp_asks_in cfg k R (c :: calls) q).
    { intros q (before & rnd & req & rsp & rest & E & HQ). exists (c :: before), rnd, req, rsp, rest. split; [now rewrite E|exact HQ]. }
    specialize (IH (@after_call cfg k R c) (@reached_step cfg k slots R c HR HK) F' (alike_weaken _ _ _ _ HW AK) (slots_alike_weaken _ _ _ _ HW AS)).
    destruct c as [rnd req rsp|]; cbn [observed].
    - destruct HK as [HB RK].
      assert (HN : forall q, @rsp_asks cfg k R rnd req q -> @rsp_asks_in cfg k R (CallHandle rnd req rsp :: calls) q).
      { intros q HQ. exists [], rnd, req, rsp, calls. split; [reflexivity|exact HQ]. }
      destruct (@responder_handle_msg cfg k R rnd req rsp) as [[reply out] R1] eqn:EH.
      rewrite (C82_responder_call k k' slots slots' R rnd req rsp reply out R1 ST HR HB RK
                (alike_weaken _ _ _ _ HN AK) (slots_alike_weaken _ _ _ _ HN AS) EH).
      cbn [after_call] in IH. rewrite EH in IH. f_equal. exact IH.
    - exact IH. }
  apply (G calls (responder_new slots)); auto. exists []. split; [constructor|reflexivity].
Qed.
End ResponderUse.

Section RequesterUse.
Context {cfg : Config}.
Variables k k' : Crypto.
Hypothesis HP : @provider k = @provider k'.

Lemma next_alike R fresh buf : @requester_next_request cfg k R fresh buf = @requester_next_request cfg k' R fresh buf.
Proof.
  unfold requester_next_request. destruct (req_state R) as [st|]; [|reflexivity].
  assert (E : @write_req cfg k st fresh = @write_req cfg k' st fresh).
  { destruct st; try reflexivity. unfold write_req, alg_write_msg, config_to_negotiate_algorithms_msg, supported_algorithms. now rewrite HP. }
  destruct st; try reflexivity; now rewrite E.
Qed.

Lemma verify_sig_alike {E} a leaf msg sig ss : MAX_SIGNATURE_SIZE < 254 ->
  sig_len a = Some ss -> length sig = ss -> ss <= MAX_SIGNATURE_SIZE -> bytes sig ->
  (forall n der, length sig = 2 * n -> der_signature der (be_val (firstn n sig)) (be_val (skipn n sig)) ->
     @webpki_sig_ok k a leaf msg der = @webpki_sig_ok k' a leaf msg der) ->
  @verify_signature cfg k E leaf a msg sig = @verify_signature cfg k' E leaf a msg sig.
Proof.
  intros MS SL LS LM HB HQ. unfold verify_signature. rewrite <- HP. destruct (@provider k); [|reflexivity].
  destruct (spdm_to_webpki a) as [a'|e|p] eqn:EW; try reflexivity. cbn [rbind]. apply webpki_inv in EW as [-> IA].
  destruct (sig_len_even a ss SL) as (n & EN). rewrite EN in LS.
  assert (M2 : MAX_SIGNATURE_SIZE / 2 < 127) by (apply Nat.div_lt_upper_bound; lia).
  assert (M3 : (N.of_nat MAX_SIGNATURE_SIZE < 65000)%N) by lia.
  assert (M4 : length sig <= MAX_SIGNATURE_SIZE) by lia.
  assert (M5 : MAX_SIGNATURE_SIZE / 2 <> 127 /\ MAX_SIGNATURE_SIZE / 2 <> 255) by lia. destruct M5 as [M5 M6]. clear M2 MS.
  destruct (N.eq_dec (be_val (firstn n sig)) 0) as [Z|Z]; [|destruct (N.eq_dec (be_val (skipn n sig)) 0) as [Z2|Z2]].
  1, 2: destruct (C43_zero_half_panics sig n (repeat 0%N max_encoded_size) LS ltac:(auto)) as (p & EP);
    destruct (bin_to_der sig (repeat 0%N max_encoded_size)) as [r0 o0]; cbn [fst] in EP; subst r0; reflexivity.
  destruct (C43_bin_to_der sig n LS M4 M3 M5 M6 HB Z Z2) as (m & o & E1 & E2 & E3 & E4). rewrite E1.
  destruct (_ <=? _); [|reflexivity]. now rewrite (HQ n _ LS E4).
Qed.

Lemma req_challenge_alike R s root rsp t : @req_setting cfg k -> bytes rsp -> st_ok (ReqChallenge s) -> t_wf t ->
  req_state R = Some (ReqChallenge s) -> req_root R = root -> req_transcript R = t ->
  alike (@req_asks cfg k R rsp) k k' ->
  @req_chal_handle_msg cfg k s root rsp t = @req_chal_handle_msg cfg k' s root rsp t.
Proof.
  intros (H8 & MS & HC) Hrsp (SB & SL & SN) W ES ER ET (_ & AH & AC & AA & AT & AV). unfold req_chal_handle_msg.
  apply lockstep_lift; [reflexivity|]. intros [] H1.
  change ChallengeAuth_id with (id_of KChallengeAuth) in H1. apply req_expect_inv in H1. apply header_iff in H1 as [L (rest & E0)].
  apply lockstep_lift; [reflexivity|]. intros ds HD. apply digest_size_inv in HD as (KH & -> & DL).
  apply lockstep_lift; [reflexivity|]. intros ss HG. apply sig_size_inv in HG as [HS1 HS2].
  apply lockstep_lift; [reflexivity|]. intros body X.
  rewrite E0 in X. change ([version_of KChallengeAuth; code_of KChallengeAuth] ++ rest) with (0x11 :: 0x03 :: rest)%N in X.
  rewrite body_of_run in X. injection X as <-.
  apply lockstep; [reflexivity|]. intros m t1 X. apply map_err_lift_inv in X as [X ->].
  apply C15_challenge_auth_parse in X; [|rewrite E0 in Hrsp; now apply bytes_app in Hrsp]. destruct X as (bs & r & E2 & rsvd & olen & RV & OL & FO & ->).
  destruct (N.eqb_spec (ca_slot m) (qh_cert_slot s)) as [ESL|]; cbn [negb]; [|reflexivity].
  assert (E3 : rsp = ([0x11; 0x03]%N ++ ca_bytes rsvd olen m) ++ r) by (rewrite E0, E2; reflexivity).
  assert (LS : length (ca_signature m) = ss) by apply FO.
  destruct (ca_sig_suffix rsp Hrsp rsvd olen m r ss E3 LS) as [BS LR].
  set (h := al_base_hash (qh_algorithms s)) in *. set (asym := al_base_asym (qh_algorithms s)) in *.
  set (portion := firstn (N.to_nat (qh_cert_chain_size s)) (qh_cert_chain s)) in *.
  set (signed := t_get t ++ firstn (length rsp - ss) rsp).
  assert (Q : forall q, (q = HashOf h portion \/
     ca_cert_chain_hash m = @sha k h portion /\
     (q = HashOf h signed \/
      exists chain, portion = chain_bytes chain /\ chain_ok (hash_len h) chain /\
       (q = CertOk (cc_leaf_cert chain) \/ q = AnchorOk root \/
        q = ChainOk asym (cc_leaf_cert chain) (cc_intermediates chain) root trust_time \/
        @chain_trusted cfg k root asym (hash_len h) portion chain /\
        exists n der, length (ca_signature m) = 2 * n /\
          der_signature der (be_val (firstn n (ca_signature m))) (be_val (skipn n (ca_signature m))) /\
          q = SigOk asym (cc_leaf_cert chain) (@sha k h signed) der))) -> @req_asks cfg k R rsp q).
  { intros q HQ. exists s, m, rsvd, olen, ss. rewrite ER, ET. split; [exact ES|]. split; [exact HS1|]. split; [exists r; exact E3|].
    split; [exact FO|]. split; [exact ESL|]. exact HQ. }
  apply lockstep; [reflexivity|]. intros [] t1 X.
  assert (t1 = t) as ->.
  { destruct (negb _) in X; [|injection X as <-; reflexivity]. apply bind_inv in X as (b & t2 & Y & X). apply lift_inv in Y as [Y ->].
    destruct (_ =? _)%N in X; [discriminate|]. injection X as <-. reflexivity. }
  clear X. apply lockstep; [reflexivity|]. intros [] t1 X.
  destruct (Nat.ltb_spec (length (qh_cert_chain s)) (N.to_nat (qh_cert_chain_size s))) as [|LC]; [discriminate|]. injection X as <-.
  assert (AP : @sha k h portion = @sha k' h portion) by (apply AH, Q; auto).
  apply lockstep_lift; [now apply digest_alike|]. intros dg X. apply digest_inv in X as [U ->]; [|exact HC].
  destruct (list_eqb (ca_cert_chain_hash m) (sha h portion)) eqn:EQ; cbn [negb]; [|reflexivity]. apply list_eqb_iff in EQ.
  apply lockstep; [reflexivity|]. intros [] t1 X.
  destruct (Nat.ltb_spec (length rsp) ss); [lia|]. injection X as <-.
  apply lockstep; [reflexivity|]. intros u t1 X. apply tr_extend_inv in X as [W1 G1]; [|exact W].
  apply lockstep; [reflexivity|]. intros tr t2 X. unfold gets in X. injection X as <- <-. rewrite G1. fold signed.
  assert (AS : @sha k h signed = @sha k' h signed) by (apply AH, Q; auto).
  apply lockstep_lift; [now apply digest_alike|]. intros hh X. apply digest_inv in X as [_ ->]; [|exact HC].
  unfold lift. f_equal. unfold verify_cert_chain_and_signature.
  destruct (Nat.ltb_spec (length (qh_cert_chain s)) (N.to_nat (qh_cert_chain_size s))); [lia|]. fold portion asym.
  assert (BL : bytes portion) by now apply bytes_firstn.
  destruct (chain_parse portion (hash_len h)) as [chain|e|p] eqn:EC; try reflexivity. cbn [rmap_err rbind].
  apply C13_chain_parse in EC as (C1 & C2 & C3); [|exact BL].
  assert (QC : forall q, q = CertOk (cc_leaf_cert chain) \/ q = AnchorOk root \/
        q = ChainOk asym (cc_leaf_cert chain) (cc_intermediates chain) root trust_time \/
        @chain_trusted cfg k root asym (hash_len h) portion chain /\
        (exists n der, length (ca_signature m) = 2 * n /\
          der_signature der (be_val (firstn n (ca_signature m))) (be_val (skipn n (ca_signature m))) /\
          q = SigOk asym (cc_leaf_cert chain) (@sha k h signed) der) -> @req_asks cfg k R rsp q).
  { intros q HQ. apply Q. right. split; [exact EQ|]. right. exists chain. auto. }
  unfold new_end_entity_cert, verify_chain_of_trust. rewrite <- HP.
  assert (PR : @provider k = ProviderRing) by apply U. rewrite PR.
  rewrite <- (AC (cc_leaf_cert chain)) by (apply QC; auto).
  destruct (@webpki_cert_ok k (cc_leaf_cert chain)) eqn:K1; [|reflexivity]. cbn [rmap_err rbind].
  rewrite <- (AA root) by (apply QC; auto).
  destruct (@webpki_anchor_ok k root) eqn:K2; [|reflexivity].
  destruct (spdm_to_webpki asym) as [a'|e|p] eqn:EW; try reflexivity. cbn [rbind]. apply webpki_inv in EW as [-> IA].
  change UNIX_TIME with trust_time.
  rewrite <- (AT asym (cc_leaf_cert chain) (cc_intermediates chain) root trust_time) by (apply QC; auto).
  destruct (@webpki_chain_ok k _ _ _ _ _) eqn:K3; [|reflexivity]. cbn [rmap_err rbind].
  rewrite (verify_sig_alike asym (cc_leaf_cert chain) (@sha k h signed) (ca_signature m) ss MS HS1 LS HS2 BS); [reflexivity|].
  intros n der LN DS. apply AV, QC. right. right. right. split; [|exists n, der; auto].
  exact (conj C3 (conj C1 (conj K1 (conj K2 K3)))).
Qed.

(** One call of [handle_msg]: same result and same requester afterwards. *)
Lemma requester_call root R rsp : @req_setting cfg k -> @req_reached cfg k root R -> bytes rsp ->
  alike (@req_asks cfg k R rsp) k k' ->
  @requester_handle_msg cfg k R rsp = @requester_handle_msg cfg k' R rsp.
Proof.
  intros ST HR HB AK. unfold requester_handle_msg. destruct (req_state R) as [st|] eqn:ES; [|reflexivity].
  assert (E : @req_dispatch cfg k st (req_root R) rsp (req_transcript R) = @req_dispatch cfg k' st (req_root R) rsp (req_transcript R)).
  2: { now rewrite E. }
  destruct st as [| |s|s|s|s|]; try reflexivity. cbn [req_dispatch].
  destruct (@reached_inv cfg k root R (ReqChallenge s) ST HR ES ltac:(discriminate)) as (_ & W & SO).
  apply lockstep; [|reflexivity]. apply (req_challenge_alike R); auto.
Qed.
End RequesterUse.

Section RequesterUse2.
Context {cfg : Config}.

(** One call: with a second library that answers the questions of [req_asks] alike,
    the result and the requester are the same; and [next_request] asks nothing. *)
Theorem C82_requester_call k k' root R rsp :
  @req_setting cfg k -> @req_reached cfg k root R -> bytes rsp -> alike (@req_asks cfg k R rsp) k k' ->
  @requester_handle_msg cfg k R rsp = @requester_handle_msg cfg k' R rsp.
Proof. intros ST HR HB AK. apply (requester_call k k' (proj1 AK) root); auto. Qed.
Theorem C82_requester_next k k' R fresh buf : alike (fun _ => False) k k' ->
  @requester_next_request cfg k R fresh buf = @requester_next_request cfg k' R fresh buf.
Proof. intros AK. apply next_alike, AK. Qed.

(** A whole life: everything the user sees is the same. *)
Theorem C82_requester_history k k' root calls :
  @req_setting cfg k -> Forall req_call_ok calls ->
  alike (@req_asks_in cfg k (requester_new root) calls) k k' ->
  @req_observed cfg k (requester_new root) calls = @req_observed cfg k' (requester_new root) calls.
Proof.
  intros ST F AK.
  assert (G : forall calls R, @req_reached cfg k root R -> Forall req_call_ok calls -> alike (@req_asks_in cfg k R calls) k k' ->
    @req_observed cfg k R calls = @req_observed cfg k' R calls).
  { clear calls F AK. induction calls as [|c calls IH]; intros R HR F AK; [reflexivity|].
    inversion F as [|c0 l0 HK F' E0]; subst.
    assert (HR' : @req_reached cfg k root (@req_after_call cfg k R c)).
    { destruct HR as (cs & FC & ->). exists (cs ++ [c]). split; [apply Forall_app; auto|]. unfold req_after. now rewrite fold_left_app. }
    assert (HW : forall q, @req_asks_in cfg k (@req_after_call cfg k R c) calls q -> @req_asks_in cfg k R (c :: calls) q).
    { intros q (before & rsp & rest & E & HQ). exists (c :: before), rsp, rest. split; [now rewrite E|exact HQ]. }
    specialize (IH _ HR' F' (alike_weaken _ _ _ _ HW AK)).
    destruct c as [fresh buf|rsp]; cbn [req_observed].
    - rewrite <- (next_alike k k' (proj1 AK) R fresh buf). cbn [req_after_call] in IH.
      destruct (@requester_next_request cfg k R fresh buf) as [[o b] R1]. f_equal. exact IH.
    - assert (HN : forall q, @req_asks cfg k R rsp q -> @req_asks_in cfg k R (CallMsg rsp :: calls) q).
      { intros q HQ. exists [], rsp, calls. split; [reflexivity|exact HQ]. }
      rewrite <- (C82_requester_call k k' root R rsp ST HR HK (alike_weaken _ _ _ _ HN AK)). cbn [req_after_call] in IH.
      destruct (@requester_handle_msg cfg k R rsp) as [b R1]. f_equal. exact IH. }
  apply (G calls (requester_new root)); auto. exists []. split; [constructor|reflexivity].
Qed.
End RequesterUse2.

(** * The hypotheses are met: a library that differs in every other answer *)
Section Checks.
Context {cfg : Config} {cr : Crypto}.
(** A check that a responder's questions concern SHA-256 and the key of slot 0 only. *)
Definition rsp_hash_one (R : Responder) : bool :=
  match rsp_state R with
  | Some (RspIdAuth s) | Some (RspChallenge s) => (al_base_hash (ri_algorithms s) =? 1)%N
  | _ => true
  end.
Fixpoint rsp_check (R : Responder) (calls : list call) : bool :=
  match calls with
  | [] => true
  | c :: r => match c with
              | CallHandle _ req _ => rsp_hash_one R && match req with 0x11 :: 0x83 :: slot :: _ => slot =? 0 | _ => true end%N
              | CallReset => true
              end && rsp_check (after_call R c) r
  end.
Definition plain_question (q : query) : Prop :=
  match q with HashOf h _ => h = 1%N | SignWith i _ _ => i = 0 | _ => False end.
Lemma rsp_check_sound calls : forall R q, rsp_check R calls = true -> rsp_asks_in R calls q -> plain_question q.
Proof.
  induction calls as [|c calls IH]; intros R q HK (before & rnd & req & rsp & rest & E & HQ).
  - destruct before; discriminate.
  - cbn [rsp_check] in HK. apply andb_true_iff in HK as [K1 K2]. destruct before as [|c0 before].
    + injection E as -> ->. apply andb_true_iff in K1 as [K1 K3]. unfold after, rsp_asks in HQ. cbn [fold_left] in HQ. unfold rsp_hash_one in K1.
      destruct (rsp_state R) as [[| | | |s|s]|]; try contradiction.
      * destruct HQ as (_ & i & ch & _ & ->). now apply N.eqb_eq.
      * destruct HQ as (slot & t & nonce & f & mask & (r & ->) & _ & _ & _ & HQ). apply N.eqb_eq in K1. rewrite K1 in HQ.
        cbn in K3. apply N.eqb_eq in K3. subst slot. destruct HQ as [->|[->| ->]]; reflexivity.
    + injection E as -> ->. apply (IH _ _ K2). exists before, rnd, req, rsp, rest. auto.
Qed.

Fixpoint req_check (R : Requester) (calls : list req_call) : bool :=
  match calls with
  | [] => true
  | c :: r => match req_state R with
              | Some (ReqChallenge s) => (al_base_hash (qh_algorithms s) =? 1)%N && (al_base_asym (qh_algorithms s) =? 0x10)%N
              | _ => true
              end && req_check (req_after_call R c) r
  end.
Definition plain_req_question (q : query) : Prop :=
  match q with
  | HashOf h _ => h = 1%N | SignWith _ _ _ => False | ChainOk a _ _ _ t => a = 0x10%N /\ t = trust_time | SigOk a _ _ _ => a = 0x10%N
  | CertOk _ | AnchorOk _ => True
  end.
Lemma req_check_sound calls : forall R q, req_check R calls = true -> req_asks_in R calls q -> plain_req_question q.
Proof.
  induction calls as [|c calls IH]; intros R q HK (before & rsp & rest & E & HQ).
  - destruct before; discriminate.
  - cbn [req_check] in HK. apply andb_true_iff in HK as [K1 K2]. destruct before as [|c0 before].
    + injection E as -> ->. destruct HQ as (s & m & rsvd & olen & ss & ES & _ & _ & _ & _ & HQ). unfold req_after in ES. cbn [fold_left] in ES.
      rewrite ES in K1. apply andb_true_iff in K1 as [K1 K3]. apply N.eqb_eq in K1, K3. rewrite K1, K3 in HQ. cbv zeta in HQ.
      destruct HQ as [->|(_ & [->|(ch & _ & _ & [->|[->|[->|(_ & n & der & _ & _ & ->)]]])])]; cbn; auto.
    + injection E as -> ->. apply (IH _ _ K2). exists before, rsp, rest. auto.
Qed.
End Checks.

#[local] Existing Instance sample_cfg.
(** Hashes of other algorithms are empty, chains verify at no other time and with no
    other algorithm, signatures of other algorithms never; the other slot's key fails. *)
Definition other_crypto : Crypto :=
  Build_Crypto ProviderRing (fun h data => if (h =? 1)%N then toy_hash h data else []) (fun _ => true) (fun _ => true)
    (fun a _ _ _ time => (a =? 0x10)%N && (time =? trust_time)%N) (fun a _ msg der => (a =? 0x10)%N && (nth 4 der 0 =? toy_key msg)%N).
Definition other_slots : list (option FilledSlot) :=
  [Some (sample_slot 5); None; None; Some (mkSlot 0x10 1 (sample_chain 6) (fun _ _ => Err tt)); None].
Lemma other_alike (Q : query -> Prop) : (forall q, Q q -> plain_question q \/ plain_req_question q) -> alike Q sample_crypto other_crypto.
Proof.
  intros HQ. split; [reflexivity|]. split; [|split; [reflexivity|split; [reflexivity|split]]].
  - intros h data H. destruct (HQ _ H) as [X|X]; cbn in X; rewrite X; reflexivity.
  - intros a leaf inter root time H. destruct (HQ _ H) as [[]|[-> ->]]. reflexivity.
  - intros a leaf msg der H. destruct (HQ _ H) as [[]|X]. cbn in X. rewrite X. reflexivity.
Qed.
(** The whole sample run: GET_VERSION to CHALLENGE, reset, and again. *)
Definition use_calls : list call :=
  map (fun r => CallHandle (sample_rnd 3) r big_buf) sample_requests ++ CallReset :: map (fun r => CallHandle (sample_rnd 4) r big_buf) sample_requests.
Lemma use_calls_check : @rsp_check sample_cfg sample_crypto (responder_new sample_slots) use_calls = true.
Proof. vm_compute. reflexivity. Qed.
Lemma use_calls_ok : Forall call_ok use_calls.
Proof.
  unfold use_calls. apply Forall_app. split; [|constructor; [exact I|]]; apply Forall_map.
  all: eapply Forall_impl; [|exact (bytes_all sample_requests eq_refl)]; intros r HB; split; [exact HB|apply sample_rnd_ok; reflexivity].
Qed.
Example C82_responder_example :
  @setting sample_cfg sample_crypto sample_slots /\ Forall call_ok use_calls /\
  alike (@rsp_asks_in sample_cfg sample_crypto (responder_new sample_slots) use_calls) sample_crypto other_crypto /\
  slots_alike (@rsp_asks_in sample_cfg sample_crypto (responder_new sample_slots) use_calls) sample_slots other_slots /\
  @sha sample_crypto 2 [] <> @sha other_crypto 2 [] /\
  forallb (fun x => match fst x with Replied _ (Ok tt) => true | _ => false end)
    (@observed sample_cfg sample_crypto (responder_new sample_slots) use_calls) = true.
Proof.
  refine (conj sample_setting (conj use_calls_ok (conj _ (conj _ (conj _ _))))).
  - apply other_alike. intros q HQ. left. exact (rsp_check_sound use_calls _ q use_calls_check HQ).
  - split; [reflexivity|]. intros [|[|[|[|[|i]]]]]; cbn [nth_error sample_slots other_slots]; auto.
    + split; [reflexivity|]. intros r msg HQ. pose proof (rsp_check_sound use_calls _ _ use_calls_check HQ) as X. discriminate X.
    + now destruct i.
  - discriminate.
  - vm_compute. reflexivity.
Qed.
Definition use_req_calls : list req_call := flat_map (fun r => [CallNext (repeat 7%N 32) big_buf; CallMsg r]) sample_responses.
Lemma use_req_check : @req_check sample_cfg sample_crypto (requester_new [1; 2; 3]%N) use_req_calls = true.
Proof. vm_compute. reflexivity. Qed.
Lemma sample_req_setting82 : @req_setting sample_cfg sample_crypto.
Proof. split; [apply Nat.leb_le; reflexivity|]. split; [apply Nat.ltb_lt; reflexivity|]. apply sample_setting. Qed.
Lemma use_req_ok : Forall req_call_ok use_req_calls.
Proof.
  assert (F : Forall bytes sample_responses) by exact (bytes_all sample_responses eq_refl).
  unfold use_req_calls. induction F as [|r l HB _ IH]; [constructor|]. cbn [flat_map app]. constructor; [|constructor; [exact HB|exact IH]].
  split; [reflexivity|]. apply bytes_check. vm_compute. reflexivity.
Qed.
Lemma use_req_alike : alike (@req_asks_in sample_cfg sample_crypto (requester_new [1; 2; 3]%N) use_req_calls) sample_crypto other_crypto.
Proof. apply other_alike. intros q HQ. right. exact (req_check_sound use_req_calls _ q use_req_check HQ). Qed.
Definition use_req_observed := @req_observed sample_cfg sample_crypto (requester_new [1; 2; 3]%N) use_req_calls.
Lemma use_req_length : length use_req_observed = 12.
Proof. vm_compute. reflexivity. Qed.
Lemma use_req_accepts : last use_req_observed (inr (Ok false)) = inr (Ok true).
Proof. vm_compute. reflexivity. Qed.
Example C82_requester_example :
  @req_setting sample_cfg sample_crypto /\ Forall req_call_ok use_req_calls /\
  alike (@req_asks_in sample_cfg sample_crypto (requester_new [1; 2; 3]%N) use_req_calls) sample_crypto other_crypto /\
  @webpki_chain_ok sample_crypto 0x10 [] [] [] 5 = true /\ @webpki_chain_ok other_crypto 0x10 [] [] [] 5 = false /\
  length use_req_observed = 12 /\ last use_req_observed (inr (Ok false)) = inr (Ok true).
Proof. exact (conj sample_req_setting82 (conj use_req_ok (conj use_req_alike (conj eq_refl (conj eq_refl (conj use_req_length use_req_accepts)))))). Qed.
