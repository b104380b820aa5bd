(** The requester against the checks of SpecReqVerdict. *)
From Verif Require Import Base BaseLemmas Config Encoding MsgCommon MsgVersion MsgCapabilities MsgAlgorithms MsgDigest
     MsgCertificates MsgChallenge MsgError Transcript Crypto Responder Requester SpecWire SpecMsgs SpecResponder SpecRequester SpecVerdict SpecReqVerdict
     FlagLemmas GramBasic GramAlg GramDigest GramCert GramChal ReaderLogic PropTools PropTranscript PropVersionCaps PropAlg PropCerts PropChal PropGeneric
     PropTables PropDer RspParts RspStep RspPanic VerdictLogic RspVerdict ReqStep ReqMsg ReqPanic.

From Verif Require SpecFaults PropFaults.

#[local] Opaque chain_bytes.
#[local] Arguments Nat.leb : simpl never.
#[local] Arguments Nat.ltb : simpl never.

Section ReqVerdict.
Context {cfg : Config} {cr : Crypto}.
Variable root rsp : list N.
Hypothesis HB : bytes rsp.
Hypothesis HS : req_setting.

Lemma D_lift_pan {St E A B} (P : Prop) cs (r : res E A) (k : A -> M St E B) c p : ~ P -> r = Panic p -> D ((P, Crash) :: cs) (bind (lift r) k) c.
Proof. intros HP E1. eapply D_pan; [exact HP|]. unfold lift. rewrite E1. reflexivity. Qed.
Lemma D_lift_ok {St E A B} cs (r : res E A) (k : A -> M St E B) c a : r = Ok a -> D cs (k a) c -> D cs (bind (lift r) k) c.
Proof. intros E1 H. eapply D_ok; [|exact H]. unfold lift. now rewrite E1. Qed.
Lemma D_lift_err {St E A B} (P : Prop) (why : E -> Prop) cs (r : res E A) (k : A -> M St E B) c e : ~ P -> r = Err e -> why e -> D ((P, Refuse why) :: cs) (bind (lift r) k) c.
Proof. intros HP E1 W. eapply D_err; [exact HP| |exact W]. unfold lift. rewrite E1. reflexivity. Qed.

Lemma told {E A} (parse : list N -> res E A) table (f : E -> RequesterError) a b rest e :
  rsp = [a; b] ++ rest -> PropFaults.reports parse table -> parse rest = Err e -> fault_of f (table (skipn 2 rsp)) (f e).
Proof.
  intros E0 R E1. replace (skipn 2 rsp) with rest by (rewrite E0; reflexivity).
  apply (fault_reported parse table f rest e R); [|exact E1]. rewrite E0 in HB. now apply bytes_app in HB.
Qed.
Lemma D_says {E A B} (parse : list N -> res E A) fmt (f : E -> RequesterError) (k : A -> T B) a b rest c (P : Prop) (why : RequesterError -> Prop) cs :
  rsp = [a; b] ++ rest -> parses_exactly parse fmt -> (forall p, parse rest <> Panic p) ->
  (P <-> exists bs m, starts_with ([a; b] ++ bs) rsp /\ fmt bs m) -> (forall e, parse rest = Err e -> why (f e)) ->
  (forall bs m r, rsp = ([a; b] ++ bs) ++ r -> fmt bs m ->
     (forall bs' m', starts_with ([a; b] ++ bs') rsp -> fmt bs' m' -> m' = m) -> D cs (k m) c) ->
  D ((P, Refuse why) :: cs) (bind (map_err f (lift (parse rest))) k) c.
Proof.
  intros E0 PE NP IP HW HK. assert (HBr : bytes rest) by (rewrite E0 in HB; now apply bytes_app in HB).
  assert (Back : forall bs m, starts_with ([a; b] ++ bs) rsp -> fmt bs m -> parse rest = Ok m).
  { intros bs m (r & E2) FM. rewrite E0, <- app_assoc in E2. apply app_inv_head in E2. apply PE; [auto|]. rewrite E2. eauto. }
  destruct (parse rest) as [m|e|p] eqn:E1; [| |now destruct (NP p)].
  - pose proof E1 as E2. apply PE in E2; [|auto]. destruct E2 as (bs & r & E2 & FM).
    assert (E3 : rsp = ([a; b] ++ bs) ++ r) by (rewrite E0, E2; now rewrite <- app_assoc).
    eapply D_hold; [apply IP; exists bs, m; split; [exists r; exact E3|auto]|].
    eapply D_ok; [apply map_err_lift_run; reflexivity|]. apply (HK bs m r E3 FM).
    intros bs' m' SW FM'. specialize (Back _ _ SW FM'). congruence.
  - eapply D_err with (e := f e) (c1 := c); [|reflexivity|now apply HW]. rewrite IP. intros (bs & m & SW & FM).
    specialize (Back _ _ SW FM). discriminate.
Qed.
Lemma D_tr {B} bs (k : unit -> T B) t (P : Prop) cs : t_wf t -> (P <-> log_fits (t_get t) (length bs)) ->
  (forall t1, t_wf t1 -> t_get t1 = t_get t ++ bs -> P -> D cs (k tt) t1) ->
  D ((P, Refuse (is ReqBufferFull)) :: cs) (bind (tr_extend bs) k) t.
Proof.
  intros W IP HK. unfold log_fits in IP. destruct (Nat.le_gt_cases (length (t_get t) + length bs) TRANSCRIPT_SIZE) as [L|L].
  - destruct (tr_extend_run bs t W ltac:(rewrite app_length; exact L)) as (t1 & X & W1 & G1).
    eapply D_hold; [now apply IP|]. eapply D_ok; [exact X|]. apply HK; auto. now apply IP.
  - eapply D_err with (c1 := t) (e := ReqBufferFull); [rewrite IP; lia| |reflexivity].
    rewrite t_get_length in L by auto. unfold tr_extend, map_err. now rewrite (proj2 (t_extend_spec t bs W) L).
Qed.
(** Past the header. *)
Lemma D_head {A} k (m : T A) t cs a b : version_of k = a -> code_of k = b ->
  (forall rest, rsp = [a; b] ++ rest -> D cs m t) ->
  D ((2 < length rsp, Crash) ::
     (code rsp = b, Refuse (is (ReqUnexpectedMsgCode b (nth 0 rsp 0%N)))) ::
     (nth 0 rsp 0%N = a, Refuse (is ReqParseHeader)) :: cs) (lift (req_expect (id_of k) rsp) ;;; m) t.
Proof.
  intros <- <- HD. destruct (Nat.le_gt_cases (length rsp) 2) as [L|L].
  { eapply D_lift_pan with (p := PAssert); [lia|]. unfold req_expect. now rewrite C20_short_panics. }
  eapply D_hold; [exact L|]. destruct (C20_parse_header k rsp L) as (H1 & H2 & H3).
  destruct rsp as [|x [|y r]] eqn:ER; simpl in L; try lia. cbn [nth_error] in H1, H2, H3.
  unfold code. cbn [nth].
  destruct (N.eq_dec y (code_of k)) as [->|NC].
  - eapply D_hold; [reflexivity|]. destruct (N.eq_dec x (version_of k)) as [->|NV].
    + eapply D_hold; [reflexivity|]. eapply D_lift_ok with (a := tt).
      * unfold req_expect. rewrite (proj2 H1) by auto. reflexivity.
      * eapply HD. reflexivity.
    + eapply D_lift_err with (e := ReqParseHeader); [congruence| |reflexivity]. unfold req_expect.
      rewrite (proj2 H2); [reflexivity|]. split; congruence.
  - eapply D_lift_err; [congruence| |reflexivity]. unfold req_expect. rewrite (proj2 H3) by congruence. cbn [nth_error].
    f_equal. f_equal. destruct k; reflexivity.
Qed.
Lemma D_map {A B} cs (m : T A) (f : A -> B) t : D cs m t -> D cs (x <- m ;; ret (f x)) t.
Proof. intros H. apply D_then; [exact H|]. intros a c1 _. exists (f a), c1. reflexivity. Qed.

Lemma D_hear_version t : t_wf t ->
  D (hear_checks root rsp (t_get t) ReqVersion) (req_dispatch ReqVersion root rsp) t.
Proof.
  intros W. cbn [req_dispatch]. apply (D_map _ _ (fun s => ReqCapabilities s)). unfold req_version_handle_msg.
  change Version_id with (id_of KVersion). unfold hear_checks. cbn [app awaits fst snd].
  apply D_head; [reflexivity|reflexivity|]. intros rest E0.
  eapply D_eq; [exact (t_body_run rsp HB _ _ _ _ _ E0)|].
  eapply D_says; [exact E0|exact C07_version_parse| | |intros e E9; exact (told _ _ ReqParseVersion _ _ _ _ E0 PropFaults.C73_version E9)|].
  - intros p. apply (nopanic_of _ _ rspec_version). rewrite E0 in HB. now apply bytes_app in HB.
  - split.
    + intros (es & SW & F & L). exists (version_body es), (mkVersion (N.of_nat (length es)) (es ++ repeat (mkVE 0 0 0 0) (2 - length es))).
      split; [exact SW|]. exists es. split; [split; [exact L|split; reflexivity]|]. auto.
    + intros (bs & m & SW & es & VH & F & ->). exists es. split; [exact SW|]. split; [exact F|apply VH].
  - intros bs v r E3 (es & VH & F & ->) U.
    assert (SV : says_versions rsp es) by (split; [exists r; exact E3|split; [exact F|apply VH]]).
    assert (UE : forall es', says_versions rsp es' -> es' = es).
    { intros es' (SW & F' & L'). pose proof (U (version_body es') (mkVersion (N.of_nat (length es')) (es' ++ repeat (mkVE 0 0 0 0) (2 - length es'))) SW) as X.
      assert (VH' : version_has (mkVersion (N.of_nat (length es')) (es' ++ repeat (mkVE 0 0 0 0) (2 - length es'))) es') by (split; [exact L'|split; reflexivity]).
      specialize (X (ex_intro _ es' (conj VH' (conj F' eq_refl)))). subst v. destruct VH' as (_ & A1 & A2), VH as (_ & B1 & B2).
      rewrite A1 in B1. apply Nat2N.inj in B1. rewrite A2 in B2. apply (f_equal (firstn (length es'))) in B2.
      rewrite firstn_app_exact in B2 by reflexivity. rewrite B1 in B2. rewrite firstn_app_exact in B2 by reflexivity. exact B2. }
    destruct (@find_max_spec RequesterError v es VH F) as [(w & FM & HC)|[FM NO]].
    + eapply D_hold; [exists es, w; auto|]. eapply D_lift_ok; [exact FM|]. cbv iota.
      eapply D_tr; [exact W|reflexivity|]. intros t1 W1 G1 _. eapply D_end. reflexivity.
    + eapply D_ok; [apply lift_run; exact FM|]. cbv iota. eapply D_err0; [|reflexivity|].
      * intros (es' & w & SV' & (A & B & _)). rewrite (UE _ SV') in A. exact (NO w A B).
      * exists v, es. auto.
Qed.
Lemma D_hear_capabilities s t : t_wf t ->
  D (hear_checks root rsp (t_get t) (ReqCapabilities s)) (req_dispatch (ReqCapabilities s) root rsp) t.
Proof.
  intros W. cbn [req_dispatch]. apply (D_map _ _ (fun s => ReqAlgorithms s)). unfold req_cap_handle_msg.
  change Capabilities_id with (id_of KCapabilities). unfold hear_checks. cbn [app awaits fst snd].
  apply D_head; [reflexivity|reflexivity|]. intros rest E0.
  eapply D_eq; [exact (t_body_run rsp HB _ _ _ _ _ E0)|].
  eapply D_says; [exact E0|exact C08_capabilities_parse| | |intros e _; reflexivity|].
  - intros p. apply (nopanic_of _ _ rspec_capabilities). rewrite E0 in HB. now apply bytes_app in HB.
  - split.
    + intros (ct & flags & SW & OB). exists (capabilities_layout ct flags), (mkCapabilities ct flags). auto.
    + intros (bs & m & SW & OB & ->). exists (cap_ct_exponent m), (cap_flags m). split; auto.
  - intros bs m r E3 FM U. eapply D_tr; [exact W|reflexivity|]. intros t1 W1 G1 _.
    unfold req_alg_from. cbn [qc_requester_ct qc_requester_cap qc_responder_ct qc_responder_cap qc_version].
    destruct (qc_requester_ct s) as [x|] eqn:E1; [destruct (qc_requester_cap s) as [y|] eqn:E2|].
    + eapply D_hold; [split; discriminate|]. eapply D_end. reflexivity.
    + eapply D_pan0; [intros [_ X]; now destruct X|reflexivity].
    + eapply D_pan0; [intros [X _]; now destruct X|reflexivity].
Qed.
Lemma D_hear_algorithms s t : t_wf t -> st_ok (ReqAlgorithms s) ->
  D (hear_checks root rsp (t_get t) (ReqAlgorithms s)) (req_dispatch (ReqAlgorithms s) root rsp) t.
Proof.
  intros W SO. cbn [req_dispatch].
  apply D_then.
  2: { intros a t1 H. assert (EA : exists al, qa_algorithms a = Some al).
       { unfold req_alg_handle_msg in H. repeat (apply bind_inv in H as (? & ? & _ & H)). injection H as <- _. eexists. reflexivity. }
       destruct EA as (al & EA). destruct (_ && _); [|eexists _, _; reflexivity]. unfold req_id_from. rewrite EA. eexists _, _. reflexivity. }
  unfold req_alg_handle_msg. change Algorithms_id with (id_of KAlgorithms). unfold hear_checks. cbn [app awaits fst snd].
  apply D_head; [reflexivity|reflexivity|]. intros rest E0.
  eapply D_eq; [exact (t_body_run rsp HB _ _ _ _ _ E0)|].
  eapply D_says; [exact E0|exact C10_algorithms_parse| | |intros e E9; exact (told _ _ ReqParseAlgorithms _ _ _ _ E0 PropFaults.C73_algorithms E9)|].
  - intros p. apply (nopanic_of _ _ rspec_algorithms). rewrite E0 in HB. now apply bytes_app in HB.
  - split.
    + intros (al & fs & body & SW & FM & _). exists body, al. auto.
    + intros (bs & m & SW & FM). destruct (algorithms_fs bs m FM) as (fs & F1 & F2). exists m, fs, bs. auto.
  - intros body al r E3 FM U. destruct (algorithms_fs body al FM) as (fs & F1 & F2).
    destruct (qa_negotiate s) as [na|] eqn:EN.
    2: { eapply D_lift_pan; [intros X; now apply X|]. unfold ensure_valid_algorithms_selected. rewrite EN. reflexivity. }
    eapply D_hold; [discriminate|]. destruct (SO na EN) as (es & unused & N1 & N2).
    destruct (ensure_valid_spec s na es unused body al fs EN N1 N2 FM F1 F2) as [IV [V|V]].
    + eapply D_hold. { exists na, es, unused, al, fs. split; [reflexivity|]. split; [exact N1|]. split; [exact N2|]. split; [|now apply IV].
        exists body. split; [exists r; exact E3|auto]. }
      eapply D_lift_ok; [exact V|]. eapply D_tr; [exact W|reflexivity|]. intros t1 W1 G1 _. eapply D_end. reflexivity.
    + eapply D_lift_err; [|exact V|reflexivity]. intros (na' & es' & un' & al' & fs' & [= <-] & M1 & M2 & (b' & SW & FM' & G1 & G2) & SE).
      assert (al' = al) as -> by (eapply U; eauto).
      assert (X : ensure_valid_algorithms_selected s al = Ok tt).
      { apply (ensure_valid_spec s na es' un' b' al fs' EN M1 M2 FM' G1 G2). exact SE. }
      congruence.
Qed.
Lemma D_hear_id s t : t_wf t ->
  D (hear_checks root rsp (t_get t) (ReqIdAuth s)) (req_dispatch (ReqIdAuth s) root rsp) t.
Proof.
  intros W. cbn [req_dispatch]. unfold hear_checks. cbn [awaits fst snd]. destruct (qi_digests s) as [dg|] eqn:EQ.
  - apply D_then.
    2: { intros a t1 H. assert (EA : exists c, qi_cert a = Some c).
         { unfold handle_certificate in H. repeat (apply bind_inv in H as (? & ? & _ & H)). injection H as <- _. eexists. reflexivity. }
         destruct EA as (c & EA). destruct (_ && _); [|eexists _, _; reflexivity]. unfold req_chal_from. rewrite EA. eexists _, _. reflexivity. }
    unfold handle_certificate. change Certificate_id with (id_of KCertificate). cbn [app].
    apply D_head; [reflexivity|reflexivity|]. intros rest E0.
    eapply D_eq; [exact (t_body_run rsp HB _ _ _ _ _ E0)|].
    eapply D_says; [exact E0|exact C12_certificate_parse| | |intros e E9; exact (told _ _ ReqParseCert _ _ _ _ E0 PropFaults.C73_certificate E9)|].
    + intros p. apply (nopanic_of _ _ rspec_certificate). rewrite E0 in HB. now apply bytes_app in HB.
    + split.
      * intros (c & portion & SW & CH). eexists _, c. split; [exact SW|]. exists portion. auto.
      * intros (bs & m & SW & portion & CH & ->). exists m, portion. auto.
    + intros bs m r E3 FM U. eapply D_tr; [exact W|reflexivity|]. intros t1 W1 G1 _. eapply D_end. reflexivity.
  - apply (D_map _ _ (fun s => ReqIdAuth s)). unfold handle_digests. change Digests_id with (id_of KDigests). cbn [app].
    apply D_head; [reflexivity|reflexivity|]. intros rest E0.
    destruct (@digest_size_cases cfg RequesterError (al_base_hash (qi_algorithms s))) as [(KH & LH & ED)|(NH & p & ED)].
    2: { eapply D_lift_pan; [exact NH|exact ED]. }
    eapply D_hold; [split; assumption|]. eapply D_lift_ok; [exact ED|].
    eapply D_eq; [exact (t_body_run rsp HB _ _ _ _ _ E0)|].
    eapply D_says; [exact E0|exact (C11_digests_parse _ (proj1 HS))| | |intros e E9; exact (told _ _ ReqRead _ _ _ _ E0 (PropFaults.C73_digests _ (proj1 HS)) E9)|].
    + intros p. apply (nopanic_of _ _ (rspec_digests (proj1 HS) _)). rewrite E0 in HB. now apply bytes_app in HB.
    + split.
      * intros (d & SW & DO). eexists _, d. split; [exact SW|]. split; [exact DO|reflexivity].
      * intros (bs & m & SW & DO & ->). exists m. split; assumption.
    + intros bs m r E3 FM U. eapply D_tr; [exact W|reflexivity|]. intros t1 W1 G1 _. eapply D_end. reflexivity.
Qed.

(** * CHALLENGE_AUTH *)
(** verify_cert_chain_and_signature, step by step. *)
Lemma D_verify s t m2 sig ss : st_ok (ReqChallenge s) -> provider = ProviderRing ->
  sig_len (al_base_asym (qh_algorithms s)) = Some ss -> length sig = ss -> ss <= MAX_SIGNATURE_SIZE -> bytes sig ->
  let h := hash_len (al_base_hash (qh_algorithms s)) in
  let asym := al_base_asym (qh_algorithms s) in
  let portion := firstn (N.to_nat (qh_cert_chain_size s)) (qh_cert_chain s) in
  let chain P := exists c, portion = chain_bytes c /\ chain_ok h c /\ P c in
  forall P1 P2 : Prop,
  (P1 <-> exists k, ss = 2 * k /\ be_val (firstn k sig) <> 0%N /\ be_val (skipn k sig) <> 0%N) ->
  (P2 <-> exists c, chain_trusted root asym h portion c /\ signature_verifies asym (cc_leaf_cert c) m2 sig) ->
  D [ (~ chain_bad_tag h portion, Crash);
      (chain (fun _ => True), Refuse (fault_of ReqParseCertChain (SpecFaults.chain_table portion h)));
      (chain (fun c => webpki_cert_ok (cc_leaf_cert c) = true) /\ webpki_anchor_ok root = true, Refuse (is ReqInvalidCert));
      (In asym [0x10; 0x80]%N, Crash);
      (exists c, chain_trusted root asym h portion c, Refuse (is ReqInvalidCert));
      (P1, Crash); (P2, Refuse (is (ReqChallengeAuth InvalidSignature))) ]
    (@lift Transcript _ _ (verify_cert_chain_and_signature s h m2 sig root UNIX_TIME)) t.
Proof.
  intros (SB & SL & SN) PR HS1 LS LM BS h asym portion chain P1 P2 I1 I2.
  assert (BP : bytes portion) by (now apply bytes_firstn).
  assert (LP : (N.of_nat (length portion) < 65536)%N) by (unfold portion; rewrite firstn_length; lia).
  assert (Lchain : Nat.ltb (length (qh_cert_chain s)) (N.to_nat (qh_cert_chain_size s)) = false) by (apply Nat.ltb_ge; exact SL).
  assert (V0 : forall r, (rbind (rmap_err ReqParseCertChain (chain_parse portion h)) (fun chain =>
    rbind (rmap_err req_of_pki (new_end_entity_cert (cc_leaf_cert chain))) (fun cert =>
    rbind (rmap_err req_of_pki (verify_chain_of_trust cert asym (cc_intermediates chain) root UNIX_TIME)) (fun _ =>
    rbind (verify_signature cert asym m2 sig) (fun ok : bool => if ok then Ok tt else Err (ReqChallengeAuth InvalidSignature)))))) = r ->
    @lift Transcript _ _ (verify_cert_chain_and_signature s h m2 sig root UNIX_TIME) t = (r, t)).
  { intros r E. unfold lift, verify_cert_chain_and_signature. rewrite Lchain. fold portion. fold asym. now rewrite E. }
  assert (UC : forall c, portion = chain_bytes c -> chain_ok h c -> chain_parse portion h = Ok c).
  { intros c A B. apply (C13_chain_parse h portion c BP). auto. }
  destruct (chain_parse portion h) as [c|e|p] eqn:EC.
  3: { eapply D_pan0; [|apply V0; reflexivity]. intros X. apply X. apply C23_chain_panics_iff; eauto. }
  2: { eapply D_hold.
       { intros X. apply C23_chain_panics_iff in X as (p & X); [congruence|auto]. }
       eapply D_err0; [|apply V0; reflexivity|exact (fault_reported _ _ ReqParseCertChain _ _ (PropFaults.C73_certificate_chain h) BP EC)]. intros (c & A & B & _). specialize (UC c A B). discriminate. }
  eapply D_hold. { intros X. apply C23_chain_panics_iff in X as (p & X); [congruence|auto]. }
  pose proof EC as EC'. apply C13_chain_parse in EC' as (C2 & _ & C1); [|exact BP].
  assert (UU : forall c', portion = chain_bytes c' -> chain_ok h c' -> c' = c) by (intros c' A B; specialize (UC c' A B); congruence).
  eapply D_hold; [exists c; auto|]. cbn [rmap_err rbind] in V0. unfold new_end_entity_cert, verify_chain_of_trust in V0. rewrite PR in V0.
  destruct (webpki_cert_ok (cc_leaf_cert c)) eqn:K1; cbn [rmap_err rbind] in V0.
  2: { eapply D_err0; [|apply V0; reflexivity|reflexivity]. intros [(c' & A & B & K) _]. rewrite (UU c' A B) in K. congruence. }
  destruct (webpki_anchor_ok root) eqn:K2.
  2: { eapply D_err0; [|apply V0; reflexivity|reflexivity]. intros [_ K]. discriminate. }
  eapply D_hold; [split; [exists c; auto|reflexivity]|].
  destruct (in_dec N.eq_dec asym [0x10; 0x80]%N) as [IA|IA].
  2: { eapply D_pan0; [exact IA|apply V0]. assert (@spdm_to_webpki PkiError asym = Panic PUnimplemented) as ->; [|reflexivity].
       unfold spdm_to_webpki, ECDSA_ECC_NIST_P256, ECDSA_ECC_NIST_P384. simpl in IA.
       destruct (N.eqb_spec asym 16); [intuition congruence|]. destruct (N.eqb_spec asym 128); [intuition congruence|reflexivity]. }
  eapply D_hold; [exact IA|]. rewrite (webpki_run _ IA) in V0. cbn [rbind] in V0.
  destruct (webpki_chain_ok asym (cc_leaf_cert c) (cc_intermediates c) root UNIX_TIME) eqn:K3; cbn [rmap_err rbind] in V0.
  2: { eapply D_err0; [|apply V0; reflexivity|reflexivity]. intros (c' & A & B & _ & _ & K). change trust_time with UNIX_TIME in K; rewrite (UU c' A B) in K. congruence. }
  assert (CT : chain_trusted root asym h portion c) by (unfold chain_trusted; auto).
  eapply D_hold; [exists c; exact CT|].
  destruct (sig_len_even _ _ HS1) as (k & EK).
  assert (LK : length sig = 2 * k) by lia.
  assert (DZ : {be_val (firstn k sig) = 0%N \/ be_val (skipn k sig) = 0%N} + {be_val (firstn k sig) <> 0%N /\ be_val (skipn k sig) <> 0%N}).
  { destruct (N.eq_dec (be_val (firstn k sig)) 0); [auto|]. destruct (N.eq_dec (be_val (skipn k sig)) 0); auto. }
  destruct DZ as [Z|Z].
  { assert (X : exists p, @verify_signature cfg cr RequesterError (cc_leaf_cert c) asym m2 sig = Panic p).
    { unfold verify_signature. rewrite PR, (webpki_run _ IA). cbn [rbind].
      destruct (C43_zero_half_panics sig k (repeat 0%N max_encoded_size) LK Z) as (p & EP2).
      destruct (bin_to_der sig (repeat 0%N max_encoded_size)) as [r0 o0]. cbn [fst] in EP2. subst r0. eauto. }
    destruct X as (p & X). eapply D_pan0; [|apply V0; rewrite X; reflexivity].
    rewrite I1. intros (k' & E1 & Z1 & Z2). assert (k' = k) as -> by lia. tauto. }
  eapply D_hold. { apply I1. exists k. tauto. }
  pose proof (@verify_signature_spec cfg cr HS RequesterError asym (cc_leaf_cert c) m2 sig ss PR IA HS1 LS LM BS) as VS.
  destruct (@verify_signature cfg cr RequesterError (cc_leaf_cert c) asym m2 sig) as [[]|e|p] eqn:EV.
  - eapply D_hold; [apply I2; exists c; split; [exact CT|now apply VS]|]. eapply D_end. apply V0. reflexivity.
  - eapply D_err0; [|apply V0; reflexivity|reflexivity]. rewrite I2. intros (c' & (A & B & _) & SV). rewrite (UU c' A B) in SV. apply VS in SV. discriminate.
  - exfalso. unfold verify_signature in EV. rewrite PR, (webpki_run _ IA) in EV. cbn [rbind] in EV.
    destruct (bin_to_der _ _) as [[n|[]|q] der]; [destruct (_ <=? _)|]; discriminate.
  - exfalso. cbn [rbind] in V0. specialize (V0 _ eq_refl). unfold lift in V0. injection V0 as V0.
    destruct (verify_panic [0; 0; 0]%N HS ltac:(simpl; lia) s root m2 sig ss portion p PR IA SB SN HS1 LS LM BS eq_refl SL h V0)
      as [X|(c' & k' & _ & L' & Z')].
    + apply C23_chain_panics_iff in X as (p' & X); [congruence|auto].
    + assert (k' = k) as -> by lia. tauto.
Qed.
Lemma D_hear_auth s t : t_wf t -> st_ok (ReqChallenge s) ->
  D (hear_checks root rsp (t_get t) (ReqChallenge s)) (req_dispatch (ReqChallenge s) root rsp) t.
Proof.
  intros W SO. cbn [req_dispatch]. apply (D_map _ _ (fun _ => ReqNewSession)). pose proof HS as (H8 & MS & HC).
  unfold req_chal_handle_msg. change ChallengeAuth_id with (id_of KChallengeAuth). unfold hear_checks. cbn [app awaits fst snd].
  apply D_head; [reflexivity|reflexivity|]. intros rest E0. unfold hear_auth. cbv zeta.
  set (h := al_base_hash (qh_algorithms s)). set (asym := al_base_asym (qh_algorithms s)).
  set (portion := firstn (N.to_nat (qh_cert_chain_size s)) (qh_cert_chain s)).
  destruct (@digest_size_cases cfg RequesterError h) as [(KH & LH & ED)|(NH & p & ED)].
  2: { eapply D_lift_pan; [exact NH|exact ED]. }
  eapply D_hold; [split; assumption|]. eapply D_lift_ok; [exact ED|].
  destruct (@sig_size_cases cfg RequesterError asym) as [(ss & HS1 & HS2 & EG)|(NH & p & EG)].
  2: { eapply D_lift_pan; [exact NH|exact EG]. }
  eapply D_hold; [eauto|]. eapply D_lift_ok; [exact EG|].
  eapply D_eq; [exact (t_body_run rsp HB _ _ _ _ _ E0)|].
  assert (HBr : bytes rest) by (rewrite E0 in HB; now apply bytes_app in HB).
  assert (SK : skipn 2 rsp = rest) by (rewrite E0; reflexivity).
  assert (OV : (exists p, challenge_auth_parse_body rest (hash_len h) ss = Panic p) <-> ca_overflow (hash_len h) (skipn 2 rsp)).
  { rewrite SK. now apply C23_challenge_auth_panics_iff. }
  assert (SAY : forall ss' m, (sig_len asym = Some ss' /\ says_auth rsp h ss' m) <-> ss' = ss /\ challenge_auth_parse_body rest (hash_len h) ss = Ok m).
  { intros ss' m. rewrite HS1. split.
    - intros ([= <-] & rsvd & olen & (r & E1) & A & B & C). split; [reflexivity|]. apply C15_challenge_auth_parse; [auto|].
      rewrite E0, <- app_assoc in E1. apply app_inv_head in E1. exists (ca_bytes rsvd olen m), r. split; [exact E1|]. exists rsvd, olen. auto.
    - intros (-> & E1). split; [reflexivity|]. apply C15_challenge_auth_parse in E1; [|auto]. destruct E1 as (bs & r & E2 & rsvd & olen & A & B & C & ->).
      exists rsvd, olen. split; [|auto]. exists r. rewrite E0, E2, <- app_assoc. reflexivity. }
  destruct (challenge_auth_parse_body rest (hash_len h) ss) as [m|e|p] eqn:EP.
  3: { eapply D_pan; [rewrite <- OV; eauto|unfold map_err, lift; reflexivity]. }
  2: { eapply D_hold; [rewrite <- OV; intros (p & X); discriminate|]. eapply D_err; [|unfold map_err, lift; reflexivity|exists ss; split; [exact HS1|rewrite SK; exact (fault_reported _ _ ReqParseChallengeAuth _ _ (PropFaults.C73_challenge_auth (hash_len h) ss) HBr EP)]].
       intros (ss' & m & A & B & _). destruct (proj1 (SAY ss' m) (conj A B)) as [_ X]. discriminate. }
  eapply D_hold; [rewrite <- OV; intros (p & X); discriminate|].
  assert (SA : forall P : nat -> ChallengeAuth -> Prop, (exists ss' m', sig_len asym = Some ss' /\ says_auth rsp h ss' m' /\ P ss' m') <-> P ss m).
  { intros P. split.
    - intros (ss' & m' & A & B & C). destruct (proj1 (SAY ss' m') (conj A B)) as [-> [= <-]]. exact C.
    - intros HP. exists ss, m. destruct (proj2 (SAY ss m) (conj eq_refl eq_refl)) as [A B]. auto. }
  eapply D_hold; [apply SA; exact I|]. eapply D_ok; [apply map_err_lift_run; reflexivity|].
  destruct (proj2 (SAY ss m) (conj eq_refl eq_refl)) as [_ (rsvd & olen & (r & E3) & RV & OL & FO)].
  pose proof FO as (F1 & F2 & F3 & F4 & F5 & F6 & F7).
  destruct (N.eqb_spec (ca_slot m) (qh_cert_slot s)) as [ESL|NSL]; cbn [negb].
  2: { eapply D_err0; [rewrite SA; exact NSL|reflexivity|reflexivity]. }
  eapply D_hold; [apply SA; exact ESL|].
  assert (NP : (ca_slot m =? PROVISIONED_MASK)%N = false) by (apply N.eqb_neq; unfold PROVISIONED_MASK; lia).
  rewrite NP. cbn [negb].
  assert (DO : (overflow_checks = true -> (ca_slot m < 8)%N) \/ (overflow_checks = true /\ ca_slot m = 8%N)).
  { destruct overflow_checks; [|left; discriminate]. destruct (N.eq_dec (ca_slot m) 8); [auto|left; intros _; lia]. }
  destruct DO as [OC|[D1 D2]].
  2: { eapply D_pan with (p := POverflow) (c1 := t).
       - rewrite SA. intros X. specialize (X D1). lia.
       - unfold bind at 1, lift. rewrite D1, D2. reflexivity. }
  eapply D_hold; [apply SA; exact OC|].
  destruct (slot_bit_spec (ca_slot m) (ca_slot_mask m)) as (b & B1 & B2); [lia|exact OC|].
  destruct (N.land (ca_slot_mask m) b =? 0)%N eqn:EB.
  { eapply D_err with (c1 := t) (e := ReqChallengeAuth SlotNotInMask); [rewrite SA; intros X; apply B2 in X; discriminate| |reflexivity].
    rewrite (bind_run _ _ _ _ _ (lift_run _ _ _ B1)), EB. reflexivity. }
  eapply D_hold; [apply SA; now apply B2|].
  eapply D_ok with (a := tt) (c1 := t). { rewrite (bind_run _ _ _ _ _ (lift_run _ _ _ B1)), EB. reflexivity. }
  destruct SO as (SB & SL & SN).
  destruct (Nat.ltb_spec (length (qh_cert_chain s)) (N.to_nat (qh_cert_chain_size s))) as [|LC]; [lia|].
  eapply D_ok with (a := tt) (c1 := t); [reflexivity|]. fold portion.
  destruct (hash_usable_dec h) as [U|NU].
  2: { destruct (@digest_unusable cfg cr RequesterError h portion HC NU) as (p & X). eapply D_lift_pan; [exact NU|exact X]. }
  eapply D_hold; [exact U|]. eapply D_lift_ok; [exact (digest_usable _ _ HC U)|].
  destruct (list_eqb (ca_cert_chain_hash m) (sha h portion)) eqn:EQ; cbn [negb].
  2: { eapply D_err0; [|reflexivity|reflexivity]. rewrite SA. intros X. apply list_eqb_iff in X. congruence. }
  eapply D_hold; [apply SA; now apply list_eqb_iff|].
  destruct (ca_sig_suffix rsp HB rsvd olen m r ss E3 F7) as [BS LR].
  destruct (Nat.ltb_spec (length rsp) ss); [lia|]. eapply D_ok with (a := tt) (c1 := t); [reflexivity|].
  eapply D_tr; [exact W|rewrite SA, firstn_length; rewrite Nat.min_l by lia; reflexivity|]. intros t1 W1 G1 _.
  eapply D_ok; [reflexivity|]. eapply D_lift_ok; [exact (digest_usable _ _ HC U)|].
  pose proof (D_verify s t1 (sha h (t_get t1)) (ca_signature m) ss (conj SB (conj SL SN)) (proj1 U) HS1 F7 HS2 BS) as DV. cbv zeta in DV.
  apply DV.
  - apply SA.
  - rewrite SA, G1. reflexivity.
Qed.
Lemma D_hear st t : t_wf t -> st_ok st -> D (hear_checks root rsp (t_get t) st) (req_dispatch st root rsp) t.
Proof.
  intros W SO. destruct st as [| |s|s|s|s|].
  - eapply D_pan0; [auto|reflexivity].
  - now apply D_hear_version.
  - now apply D_hear_capabilities.
  - now apply D_hear_algorithms.
  - now apply D_hear_id.
  - now apply D_hear_auth.
  - eapply D_pan0; [auto|reflexivity].
Qed.
End ReqVerdict.

(** * next_request *)
Section Ask.
Context {cfg : Config} {cr : Crypto}.
Lemma flags_cases parse (err : RequesterError) (names : list string) : forall fl,
  ((forall name, In name names -> parse name <> None) /\ exists f, flags_of_strings parse err names fl = Ok f) \/
  (~ (forall name, In name names -> parse name <> None) /\ flags_of_strings parse err names fl = Err err).
Proof.
  induction names as [|x l IH]; intros fl; cbn [flags_of_strings]; [left; split; [intros ? []|eauto]|]. destruct (parse x) as [v|] eqn:E1.
  - destruct (IH (N.lor fl v)) as [[H X]|[H X]]; [left|right]; (split; [|exact X]).
    + intros name [<-|HI]; [congruence|auto].
    + intros H'. apply H. intros name HI. apply H'. now right.
  - right. split; [|reflexivity]. intros H. apply (H x); [now left|auto].
Qed.
Lemma D_ask st fresh c : fresh_ok fresh -> t_wf (q_tr c) -> q_state c = st -> st <> ReqNewSession ->
  D (ask_checks (length (q_buf c)) (t_get (q_tr c)) st) (write_req st fresh) c.
Proof.
  intros FO W ES NN. destruct (match st with ReqError => true | _ => false end) eqn:E0.
  { destruct st; try discriminate. eapply D_pan0; [auto|reflexivity]. }
  assert (NE : st <> ReqError) by (intros ->; discriminate).
  assert (SENT : forall out st' log' cs n log, requested fresh st (t_get (q_tr c)) out st' log' -> length out = n ->
     (log = t_get (q_tr c) /\ st <> ReqVersion \/ log = [] /\ st = ReqVersion) -> Forall fst cs ->
     D (cs ++ [sends (length (q_buf c)) log n]) (write_req st fresh) c).
  { intros out st' log' cs n log HR LN LG FC. induction FC as [|[P v] cs HP _ IH]; [|cbn [app]; eapply D_hold; [exact HP|exact IH]]. cbn [app].
    destruct (write_req_run st fresh c out st' log' W ES HR) as (base & E2 & [Q1 Q2] & EB).
    assert (EL : log = base).
    { destruct LG as [[-> X]|[-> X]]; destruct EB as [[Y ->]|Y]; try congruence.
      clear Q1 Q2 LN. destruct HR; try discriminate. change get_version_bytes with ([] ++ get_version_bytes) in E2 at 1. apply app_inv_tail in E2. exact E2. }
    unfold sends, log_fits. rewrite EL. destruct (Nat.le_gt_cases (length out) (length (q_buf c))) as [L1|L1].
    - destruct (Nat.le_gt_cases (length (base ++ out)) TRANSCRIPT_SIZE) as [L2|L2].
      + destruct (Q1 L1 L2) as (c' & X1 & _). eapply D_hold; [rewrite app_length in L2; lia|]. eapply D_end. exact X1.
      + destruct (Q2 (or_intror L2)) as (c' & X1 & _). eapply D_err0; [|exact X1|reflexivity]. rewrite app_length in L2. lia.
    - destruct (Q2 (or_introl L1)) as (c' & X1 & _). eapply D_err0; [|exact X1|reflexivity]. lia. }
  destruct st as [| |s|s|s|s|]; try congruence; cbn [ask_checks].
  - eapply (SENT _ _ _ []); [constructor|reflexivity|auto|constructor].
  - destruct (flags_cases ReqFlags_from_str ReqParseCapability CAPABILITIES 0) as [[HN (f & EF)]|[HN EF]].
    + assert (EC : config_to_get_capabilities_msg = Ok (mkGetCapabilities 12 f)) by (unfold config_to_get_capabilities_msg; rewrite EF; reflexivity).
      destruct (req_flags_named _ EC) as (_ & A & B).
      eapply (SENT _ _ _ [_]); [eapply requested_capabilities; [exact A|exact B|reflexivity]|reflexivity|left; split; [reflexivity|discriminate]|repeat constructor; exact HN].
    + eapply D_err0 with (e := ReqParseCapability) (c1 := c); [exact HN| |reflexivity]. cbn [write_req]. unfold cap_write_msg, config_to_get_capabilities_msg.
      rewrite EF. reflexivity.
  - destruct (flags_cases BaseAsymAlgo_from_str ReqParseBaseAsymAlgo SIGNING_ALGOS 0) as [[HN (f & EF)]|[HN EF]].
    + assert (EC : exists na, config_to_negotiate_algorithms_msg = Ok na) by (unfold config_to_negotiate_algorithms_msg; rewrite EF; eexists; reflexivity).
      destruct EC as (na & EC). apply offer_named in EC.
      eapply (SENT _ _ _ [_]); [eapply requested_algorithms; [exact EC|reflexivity]|reflexivity|left; split; [reflexivity|discriminate]|repeat constructor; exact HN].
    + eapply D_err0 with (e := ReqParseBaseAsymAlgo) (c1 := c); [exact HN| |reflexivity]. cbn [write_req]. unfold alg_write_msg, config_to_negotiate_algorithms_msg.
      rewrite EF. reflexivity.
  - destruct (qi_digests s) as [d|] eqn:EQ.
    + destruct (Nat.eq_dec NUM_SLOTS 0) as [Z|Z].
      * eapply D_pan0 with (p := PAssert) (c1 := c); [lia|]. cbn [write_req]. rewrite EQ. unfold write_get_certificate_msg. change (N.to_nat 0) with 0. rewrite Z. reflexivity.
      * eapply (SENT _ _ _ [_]); [eapply requested_certificate; [congruence|lia|reflexivity]|reflexivity|left; split; [reflexivity|discriminate]|repeat constructor; cbn [fst]; lia].
    + eapply (SENT _ _ _ []); [eapply requested_digests; [exact EQ|reflexivity]|reflexivity|left; split; [reflexivity|discriminate]|constructor].
  - eapply (SENT _ _ _ []); [eapply requested_challenge; reflexivity| |left; split; [reflexivity|discriminate]|constructor].
    unfold challenge_msg, challenge_layout, wire_nonce. rewrite !app_length. destruct FO as [F1 _]. cbn [length]. destruct feature_rand; [rewrite F1; reflexivity|reflexivity].
Qed.
End Ask.
