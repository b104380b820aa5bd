(** When a responder step can panic. *)
From Verif Require Import Base BaseLemmas Config Encoding MsgCommon MsgVersion MsgCapabilities MsgAlgorithms MsgDigest
     MsgCertificates MsgChallenge MsgError Transcript Crypto Responder SpecWire SpecMsgs SpecResponder FlagLemmas GramBasic GramAlg GramCert GramChal
     ReaderLogic PropTools PropTranscript PropVersionCaps PropAlg PropCerts PropChal PropGeneric PropTables RspParts RspStep.

#[local] Opaque chain_bytes.

Lemma bind_panic {St E A B} (m : M St E A) (k : A -> M St E B) s p s' :
  bind m k s = (Panic p, s') -> m s = (Panic p, s') \/ exists a s1, m s = (Ok a, s1) /\ k a s1 = (Panic p, s').
Proof. unfold bind. destruct (m s) as [[a|e|q] s1]; [eauto|discriminate|]. intros [= -> ->]. auto. Qed.
Lemma lift_panic {St E A} (r : res E A) (s : St) p s' : lift r s = (Panic p, s') -> r = Panic p.
Proof. unfold lift. congruence. Qed.
Lemma map_err_lift_panic {St E F A} (f : E -> F) (r : res E A) (s : St) p s' : map_err f (lift r) s = (Panic p, s') -> r = Panic p.
Proof. unfold map_err, lift. destruct r; congruence. Qed.

Section PanicSec.
Context {cfg : Config} {cr : Crypto}.
Lemma c_extend_nopanic bs c p c' : t_wf (c_tr c) -> c_extend bs c = (Panic p, c') -> False.
Proof.
  intros W. unfold c_extend, map_err. destruct (t_extend_spec (c_tr c) bs W) as [H1 H2].
  destruct (Nat.le_gt_cases (t_len (c_tr c) + length bs) TRANSCRIPT_SIZE) as [L|L].
  - destruct (H1 L) as (t' & -> & _). discriminate.
  - rewrite (H2 L). discriminate.
Qed.
Lemma c_write_nopanic {E} (from : E -> ResponderError) w F enc c p c' : writes_exactly w F enc ->
  c_write from w c = (Panic p, c') -> False.
Proof.
  intros W. unfold c_write. destruct (W (c_rsp c)) as [H1 H2].
  destruct (Nat.le_gt_cases (length enc) (length (c_rsp c))) as [L|L].
  - rewrite (H1 L). discriminate.
  - destruct (H2 L) as (e & k & _ & _ & ->). discriminate.
Qed.
Lemma parse_header_panic k req p : parse_header (id_of k) req = Panic p -> length req <= 2.
Proof.
  intros H. destruct (Nat.le_gt_cases (length req) 2) as [L|L]; [auto|]. exfalso.
  unfold parse_header in H. destruct (Nat.ltb_spec 2 (length req)); [|lia]. cbn [negb] in H.
  destruct req as [|a [|b r]]; simpl in *; try lia. destruct (negb _); [discriminate|]. destruct (_ =? _)%N; discriminate.
Qed.
Lemma expect_panic k req p : rsp_expect (id_of k) req = Panic p -> length req <= 2.
Proof.
  unfold rsp_expect. destruct (parse_header (id_of k) req) as [[]|e|q] eqn:E1; try discriminate.
  - apply header_false in E1 as [L _]. destruct req; simpl in *; [lia|discriminate].
  - intros _. eapply parse_header_panic; eauto.
Qed.
(** The common tails never panic. *)
Lemma tail_nopanic {E} (from : E -> ResponderError) wr FF out (st' : RspStates) c p c' : t_wf (c_tr c) -> writes_exactly wr FF out ->
  (size <- c_write from wr ;; o <- c_prefix size ;; c_extend o ;;; ret (size, st')) c = (Panic p, c') -> False.
Proof.
  intros W WR H. apply bind_panic in H as [H|(n & c1 & H1 & H)]; [eapply c_write_nopanic; eauto|].
  eapply c_write_inv in H1; [|exact WR]. destruct H1 as (-> & L & ->).
  rewrite (bind_run _ _ _ _ _ (c_prefix_run (length out) (mkCtx (out ++ skipn (length out) (c_rsp c)) (c_tr c))
            ltac:(cbn [c_rsp]; rewrite app_length; lia))) in H.
  apply bind_panic in H as [H|(n & c1 & H1 & H)]; [eapply c_extend_nopanic in H; auto|discriminate].
Qed.
Lemma tail_nopanic' {E} (from : E -> ResponderError) wr FF req out (st' : RspStates) c p c' : t_wf (c_tr c) -> writes_exactly wr FF out ->
  (size <- c_write from wr ;; c_extend req ;;; o <- c_prefix size ;; c_extend o ;;; ret (size, st')) c = (Panic p, c') -> False.
Proof.
  intros W WR H. apply bind_panic in H as [H|(n & c1 & H1 & H)]; [eapply c_write_nopanic; eauto|].
  eapply c_write_inv in H1; [|exact WR]. destruct H1 as (-> & L & ->).
  apply bind_panic in H as [H|(n & c1 & H1 & H)]; [eapply c_extend_nopanic in H; auto|].
  apply c_extend_inv in H1 as (R1 & W1 & G1); [|exact W]. cbn [c_rsp] in R1.
  rewrite (bind_run _ _ _ _ _ (c_prefix_run (length out) c1 ltac:(rewrite R1, app_length; lia))) in H.
  apply bind_panic in H as [H|(n' & c2 & H1 & H)]; [eapply c_extend_nopanic in H; auto|discriminate].
Qed.

Variable slots : list (option FilledSlot).
Variable rnd : Rnd.
Variable req : list N.
Hypothesis Hreq : bytes req.
Lemma body_bytes a b rest : req = a :: b :: rest -> bytes rest.
Proof. intros ->. inversion Hreq as [|? ? _ X]. now inversion X. Qed.
Lemma version_panic c p c' : t_wf (c_tr c) -> version_handle_msg req c = (Panic p, c') -> length req <= 2.
Proof.
  intros W H. unfold version_handle_msg in H. change GetVersion_id with (id_of KGetVersion) in H.
  destruct (parse_header (id_of KGetVersion) req) as [[]|e|q] eqn:E1.
  - exfalso. apply header_iff in E1 as [L (rest & E0)]. pose proof (body_bytes _ _ _ E0) as HB.
    unfold handle_get_version in H. rewrite (body_run req Hreq _ _ _ _ _ E0) in H.
    apply bind_panic in H as [H|(u & c1 & H1 & H)].
    { apply map_err_lift_panic in H. eapply (nopanic_of _ _ rspec_get_version); eauto. }
    apply map_err_lift_inv in H1 as [_ ->].
    rewrite (bind_run c_clear _ c tt (mkCtx (c_rsp c) (t_clear (c_tr c))) eq_refl) in H.
    destruct (t_clear_spec (c_tr c) W) as (W1 & _).
    apply bind_panic in H as [H|(u2 & c1 & H1 & H)]; [eapply c_extend_nopanic in H; auto|].
    apply c_extend_inv in H1 as (R1 & W2 & G2); [|exact W1].
    eapply tail_nopanic; [exact W2|exact version_default_writes|exact H].
  - apply header_false in E1 as [L _]. destruct req; simpl in *; [lia|discriminate].
  - discriminate.
  - eapply parse_header_panic; eauto.
Qed.
Lemma reset_panic rest c p c' : t_wf (c_tr c) -> reset_on_get_version req rest c = (Panic p, c') ->
  length req <= 2 \/ rest c = (Panic p, c').
Proof.
  intros W H. unfold reset_on_get_version in H. 
  destruct (parse_header GetVersion_id req) as [[]|e|q] eqn:E1; try discriminate; auto.
  - left. eapply version_panic; eauto.
  - left. eapply (parse_header_panic KGetVersion); eauto.
Qed.
Lemma capabilities_panic s c p c' : t_wf (c_tr c) -> capabilities_handle_msg s req c = (Panic p, c') -> length req <= 2.
Proof.
  intros W H. unfold capabilities_handle_msg in H. apply reset_panic in H as [H|H]; [auto| |auto].
  change GetCapabilities_id with (id_of KGetCapabilities) in H.
  apply bind_panic in H as [H|([] & c1 & H1 & H)]; [apply lift_panic in H; eapply expect_panic; eauto|].
  apply lift_inv in H1 as [H1 ->]. apply expect_inv in H1. apply header_iff in H1 as [L (rest & E0)]. pose proof (body_bytes _ _ _ E0) as HB.
  exfalso. rewrite (body_run req Hreq _ _ _ _ _ E0) in H.
  apply bind_panic in H as [H|(gc & c1 & H1 & H)].
  { apply map_err_lift_panic in H. eapply (nopanic_of _ _ rspec_get_capabilities); eauto. }
  apply map_err_lift_inv in H1 as [_ ->].
  apply bind_panic in H as [H|(u2 & c1 & H1 & H)]; [eapply c_extend_nopanic in H; auto|].
  apply c_extend_inv in H1 as (R1 & W2 & G2); [|exact W].
  apply bind_panic in H as [H|(own & c2 & H1 & H)].
  { apply lift_panic in H. unfold config_to_capabilities_msg in H.
    assert (X : forall l fl q, flags_of_strings RspFlags_from_str RspParseCapability l fl <> Panic q).
    { clear. induction l as [|x l IH]; intros; simpl; [discriminate|]. destruct (RspFlags_from_str x); [apply IH|discriminate]. }
    destruct (flags_of_strings _ _ _ _) eqn:E1; try discriminate. eapply X; eauto. }
  apply lift_inv in H1 as [_ ->].
  eapply (tail_nopanic _ _ _ _ (RspAlgorithms (mkRspAlg _ _ _ _ None))); [exact W2|exact (C08_capabilities_write own)|]. exact H.
Qed.
Lemma algorithms_panic s c p c' : t_wf (c_tr c) -> algorithms_handle_msg s req c = (Panic p, c') ->
  panics_because slots req (RspAlgorithms s).
Proof.
  intros W H. unfold algorithms_handle_msg in H. apply reset_panic in H as [H|H]; [right; auto| |auto].
  change NegotiateAlgorithms_id with (id_of KNegotiate) in H.
  apply bind_panic in H as [H|([] & c1 & H1 & H)]; [apply lift_panic in H; right; left; eapply expect_panic; eauto|].
  apply lift_inv in H1 as [H1 ->]. apply expect_inv in H1. apply header_iff in H1 as [L (rest & E0)]. pose proof (body_bytes _ _ _ E0) as HB.
  rewrite (body_run req Hreq _ _ _ _ _ E0) in H.
  apply bind_panic in H as [H|(na & c1 & H1 & H)].
  { exfalso. apply map_err_lift_panic in H. eapply (nopanic_of _ _ rspec_negotiate); eauto. }
  apply map_err_lift_inv in H1 as [H1 ->].
  apply C09_negotiate_parse in H1; [|auto]. destruct H1 as (bs & r & E2 & FB).
  apply bind_panic in H as [H|(u2 & c1 & H1 & H)]; [exfalso; eapply c_extend_nopanic in H; auto|].
  apply c_extend_inv in H1 as (R1 & W2 & G2); [|exact W].
  destruct (@choose_spec cfg ResponderError bs na FB) as (es & N1 & A1 & [(al & fs & C1 & C2 & _)|((q & C1) & EO & OC)]).
  - exfalso. apply bind_panic in H as [H|(al' & c2 & H1 & H)]; [apply lift_panic in H; congruence|].
    apply lift_inv in H1 as [H1 ->]. rewrite C1 in H1. injection H1 as <-.
    pose proof C2 as (_ & _ & N2 & [N3 N4] & _).
    eapply (tail_nopanic _ _ _ _ (RspIdAuth (mkRspId _ _ _ _ al))); [exact W2|exact (proj1 (C10_algorithms_write al fs _ N2 N4))|]. exact H.
  - right. right. split; [auto|]. exists bs, na, es. split; [|auto]. exists r. rewrite E0, E2. reflexivity.
Qed.
Hypothesis Hslots : length slots = NUM_SLOTS.
Hypothesis H8 : NUM_SLOTS <= 8.
Hypothesis HC : hash_contract.
Let chains := map (option_map fs_chain) slots.
Lemma id_auth_panic s c p c' : t_wf (c_tr c) -> id_auth_handle_msg s chains req c = (Panic p, c') ->
  panics_because slots req (RspIdAuth s).
Proof.
  intros W H. unfold id_auth_handle_msg in H. apply reset_panic in H as [H|H]; [right; auto| |auto].
  assert (LZ : length (repeat 0%N MAX_CERT_CHAIN_SIZE) = MAX_CERT_CHAIN_SIZE) by apply repeat_length.
  apply bind_panic in H as [H|(b & c1 & H1 & H)].
  { apply map_err_lift_panic in H. right; left. eapply (parse_header_panic KGetDigests); eauto. }
  apply map_err_lift_inv in H1 as [H1 ->]. destruct b.
  - change GetDigests_id with (id_of KGetDigests) in H1. apply header_iff in H1 as [L SH].
    right. right. split; [exact SH|]. unfold handle_get_digests in H.
    destruct (@mask_ok_chains cfg ResponderError slots ltac:(lia)) as (mask & M1 & M2). fold chains in M1.
    rewrite (bind_run _ _ _ _ _ (lift_run _ _ _ M1)) in H.
    apply bind_panic in H as [H|(ds & c1 & H1 & H)].
    { apply lift_panic in H. apply hash_chains_panic in H as [U (ch & HI)]; auto. split; [auto|].
      apply In_nth_error in HI as (i & Hi). exists i, ch. now apply slot_chain_map. }
    exfalso. apply lift_inv in H1 as [H1 ->].
    pose proof (hash_chains_inv _ _ HC _ _ LZ H1) as HF. rewrite (hash_chains_ok _ _ HC _ LZ HF) in H1. injection H1 as <-.
    eapply tail_nopanic'; [exact W|exact (digests_writes slots Hslots H8 HC _ _ M2 HF)|exact H].
  - exfalso. rename H1 into HD.
    apply bind_panic in H as [H|([] & c1 & H1 & H)].
    { apply lift_panic in H. eapply (expect_panic KGetCertificate) in H. apply (header_false KGetDigests) in HD. lia. }
    apply lift_inv in H1 as [H1 ->]. change GetCertificate_id with (id_of KGetCertificate) in H1. apply expect_inv in H1.
    apply header_iff in H1 as [L (rest & E0)]. pose proof (body_bytes _ _ _ E0) as HB.
    unfold handle_get_certificate in H. rewrite (body_run req Hreq _ _ _ _ _ E0) in H.
    apply bind_panic in H as [H|(gc & c1 & H1 & H)].
    { apply map_err_lift_panic in H. eapply (nopanic_of _ _ rspec_get_certificate); eauto. }
    apply map_err_lift_inv in H1 as [_ ->].
    destruct (Nat.leb_spec NUM_SLOTS (N.to_nat (gcert_slot gc))) as [|LS]; [discriminate|].
    apply bind_panic in H as [H|([pl cc] & c1 & H1 & H)].
    + apply lift_panic in H. destruct (slot_chain slots (N.to_nat (gcert_slot gc))) as [ch|] eqn:E1.
      * apply slot_chain_map in E1. fold chains in E1. rewrite E1 in H. destruct (chain_fits_dec ch) as [F|F].
        -- rewrite chain_write_fits in H by auto. discriminate.
        -- destruct (chain_write_unfit ch _ LZ F) as (e & b' & E3). rewrite E3 in H. discriminate.
      * pose proof (slot_none slots Hslots H8 _ LS E1) as EX; fold chains in EX; rewrite EX in H. discriminate.
    + apply lift_inv in H1 as [H1 ->].
      assert (X : pl = N.of_nat (length (slot_chain_bytes slots (N.to_nat (gcert_slot gc)))) /\
                  firstn (length (slot_chain_bytes slots (N.to_nat (gcert_slot gc)))) cc = slot_chain_bytes slots (N.to_nat (gcert_slot gc))).
      { unfold slot_chain_bytes. destruct (slot_chain slots (N.to_nat (gcert_slot gc))) as [ch|] eqn:E1.
        - apply slot_chain_map in E1. fold chains in E1. rewrite E1 in H1.
          destruct (chain_fits_dec ch) as [F|F].
          + rewrite chain_write_fits in H1 by auto. simpl in H1. injection H1 as <- <-.
            split; [apply N.mod_small; apply F|]. now apply firstn_app_exact.
          + destruct (chain_write_unfit ch _ LZ F) as (e & b' & E3). rewrite E3 in H1. discriminate.
        - pose proof (slot_none slots Hslots H8 _ LS E1) as EX; fold chains in EX; rewrite EX in H1. injection H1 as <- <-. auto. }
      destruct X as (-> & X3).
      eapply tail_nopanic'; [exact W|eapply (C12_certificate_write (mkCertificate _ _ _ _)); [exact X3|reflexivity]|exact H].
Qed.
Lemma challenge_panic s c p c' : t_wf (c_tr c) -> rnd_ok rnd -> challenge_handle_msg s slots rnd req c = (Panic p, c') ->
  panics_because slots req (RspChallenge s).
Proof.
  intros W RK H. unfold challenge_handle_msg in H. apply reset_panic in H as [H|H]; [right; auto| |auto].
  assert (LZ : length (repeat 0%N MAX_CERT_CHAIN_SIZE) = MAX_CERT_CHAIN_SIZE) by apply repeat_length.
  change Challenge_id with (id_of KChallenge) in H.
  apply bind_panic in H as [H|([] & c1 & H1 & H)]; [apply lift_panic in H; right; left; eapply expect_panic; eauto|].
  apply lift_inv in H1 as [H1 ->]. apply expect_inv in H1. apply header_iff in H1 as [L (rest & E0)]. pose proof (body_bytes _ _ _ E0) as HB.
  right. right. split; [exists rest; exact E0|].
  destruct (hash_usable_dec (al_base_hash (ri_algorithms s))) as [U|U]; [|auto]. pose proof U as (_ & S2 & LH).
  right.
  apply bind_panic in H as [H|(ds & c1 & H1 & H)].
  { exfalso. apply lift_panic in H. rewrite digest_size_of in H by auto. unfold digest_size in H.
    destruct (Nat.leb_spec (hash_len (al_base_hash (ri_algorithms s))) MAX_DIGEST_SIZE); [discriminate|lia]. }
  apply lift_inv in H1 as [HD ->].
  rewrite digest_size_of in HD by exact S2. unfold digest_size in HD.
  destruct (Nat.leb_spec (hash_len (al_base_hash (ri_algorithms s))) MAX_DIGEST_SIZE); [|lia]. injection HD as <-.
  apply bind_panic in H as [H|(ss & c1 & H1 & H)].
  { left. intros ss E1. apply lift_panic in H. rewrite (sig_size_of _ _ E1) in H. unfold signature_size in H.
    destruct (Nat.leb_spec ss MAX_SIGNATURE_SIZE); [discriminate|lia]. }
  apply lift_inv in H1 as [HS ->]. apply sig_size_inv in HS as [HS1 HS2].
  rewrite (body_run req Hreq _ _ _ _ _ E0) in H.
  apply bind_panic in H as [H|(m & c1 & H1 & H)].
  { exfalso. apply map_err_lift_panic in H. eapply (nopanic_of _ _ rspec_challenge); eauto. }
  apply map_err_lift_inv in H1 as [_ ->].
  apply bind_panic in H as [H|(filled & c1 & H1 & H)].
  { exfalso. apply lift_panic in H. destruct (slot_get _ _); discriminate. }
  apply lift_inv in H1 as [H1 ->].
  unfold slot_get in H1. destruct (nth_error slots (N.to_nat (ch_slot m))) as [[f|]|] eqn:EN; try discriminate. injection H1 as ->.
  destruct (chain_fits_dec (fs_chain filled)) as [F|F].
  2: { exfalso. destruct (chain_write_unfit (fs_chain filled) _ LZ F) as (e & b' & E3). rewrite E3 in H. discriminate. }
  rewrite chain_write_fits in H by auto.
  rewrite (bind_run _ _ _ (sha (al_base_hash (ri_algorithms s)) (chain_bytes (fs_chain filled))) c) in H.
  2: { apply lift_run. cbn [rmap_err rbind]. rewrite app_length.
       destruct (Nat.ltb_spec (length (chain_bytes (fs_chain filled)) + length (skipn (length (chain_bytes (fs_chain filled))) (repeat 0%N MAX_CERT_CHAIN_SIZE)))
            (length (chain_bytes (fs_chain filled)))); [lia|]. rewrite firstn_app_exact by reflexivity. now apply digest_usable. }
  apply bind_panic in H as [H|(u2 & c1 & H1 & H)]; [exfalso; eapply c_extend_nopanic in H; auto|].
  apply c_extend_inv in H1 as (R1 & W1 & G1); [|exact W].
  destruct (@mask_ok cfg ResponderError slots ltac:(lia)) as (mask & M1 & M2).
  rewrite (bind_run _ _ _ _ _ (lift_run _ _ _ M1)) in H. rewrite mutual_eq in H.
  assert (EA : slot_chain_digest (al_base_hash (ri_algorithms s)) slots (N.to_nat (ch_slot m)) =
               sha (al_base_hash (ri_algorithms s)) (chain_bytes (fs_chain filled))).
  { unfold slot_chain_digest, slot_chain_bytes, slot_chain. now rewrite EN. }
  rewrite (bind_run _ _ _ (auth_of slots rnd s (ch_slot m) mask ss) c1) in H.
  2: { apply lift_run. unfold challenge_auth_new, digest_size, signature_size. rewrite (proj1 (HC _ _ S2)), !repeat_length.
       destruct (Nat.leb_spec (hash_len (al_base_hash (ri_algorithms s))) MAX_DIGEST_SIZE); [|lia].
       destruct (Nat.leb_spec ss MAX_SIGNATURE_SIZE); [|lia]. cbn [rbind]. unfold auth_of. rewrite EA. reflexivity. }
  pose proof (auth_writes slots rnd Hslots H8 HC s _ mask ss _ RK M2 EN S2) as WR.
  apply bind_panic in H as [H|(n & c2 & H1 & H)]; [exfalso; eapply c_write_nopanic; eauto|].
  eapply c_write_inv in H1; [|exact WR]. destruct H1 as (-> & L1 & ->).
  remember (unsigned_auth s slots (ch_slot m) mask (wire_nonce (rnd_nonce rnd))) as ua eqn:EUA.
  assert (LA : length (ua ++ zeros ss) = length ua + ss) by (rewrite app_length; unfold zeros; now rewrite repeat_length).
  destruct (Nat.ltb_spec (length (ua ++ zeros ss)) ss) as [|_]; [lia|].
  rewrite (bind_run (ret tt) _ _ tt _ eq_refl) in H.
  replace (length (ua ++ zeros ss) - ss) with (length ua) in H by lia.
  rewrite (bind_run _ _ _ _ _ (c_prefix_run (length ua) (mkCtx ((ua ++ zeros ss) ++ skipn (length (ua ++ zeros ss)) (c_rsp c1)) (c_tr c1))
            ltac:(cbn [c_rsp]; rewrite !app_length; lia))) in H.
  apply bind_panic in H as [H|(u3 & c2 & H1 & H)]; [exfalso; eapply c_extend_nopanic in H; auto|].
  apply c_extend_inv in H1 as (R3 & W3 & G3); [|exact W1]. cbn [c_rsp] in R3.
  rewrite (bind_run (gets _) _ _ _ _ eq_refl) in H.
  rewrite (bind_run _ _ _ _ _ (lift_run _ _ _ (digest_usable _ _ HC U))) in H.
  right. exists filled, (rnd_sign rnd), (sha (al_base_hash (ri_algorithms s)) (t_get (c_tr c2))).
  split; [eapply nth_error_In; eauto|].
  apply bind_panic in H as [H|(sg & c3 & H1 & H)]; [left; apply map_err_lift_panic in H; eauto|].
  right. apply map_err_lift_inv in H1 as [H1 ->]. exists sg, ss. split; [auto|]. split; [auto|]. intros LSG.
  apply bind_panic in H as [H|(u4 & c3 & H2 & H)]; [|discriminate].
  unfold c_copy in H. rewrite R3 in H.
  replace ((length ua <=? length (ua ++ zeros ss)) && (length (ua ++ zeros ss) <=? length ((ua ++ zeros ss) ++ skipn (length (ua ++ zeros ss)) (c_rsp c1)))
        && (length sg =? length (ua ++ zeros ss) - length ua)) with true in H; [discriminate|].
  symmetry. rewrite !andb_true_iff, Nat.eqb_eq, !Nat.leb_le. rewrite (app_length (ua ++ zeros ss)). lia.
Qed.
Lemma dispatch_panic st c p c' : t_wf (c_tr c) -> rnd_ok rnd -> rsp_dispatch st slots rnd req c = (Panic p, c') ->
  panics_because slots req st.
Proof.
  intros W RK H. destruct st as [| |s|s|s|s]; cbn [rsp_dispatch] in H.
  - left. reflexivity.
  - right. left. eapply version_panic; eauto.
  - right. left. eapply capabilities_panic; eauto.
  - eapply algorithms_panic; eauto.
  - eapply id_auth_panic; eauto.
  - eapply challenge_panic; eauto.
Qed.
End PanicSec.
