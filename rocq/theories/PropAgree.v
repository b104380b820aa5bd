(** C39: an honest requester and an honest responder, over a transport that
    delivers, complete the protocol and agree. *)
From Verif Require Import Base BaseLemmas Config ConfigBuild Encoding MsgCommon MsgVersion MsgCapabilities MsgAlgorithms MsgDigest
     MsgCertificates MsgChallenge MsgError Transcript Crypto Responder Requester SpecWire SpecMsgs SpecResponder SpecRequester SpecAgree
     FlagLemmas PropTools PropTranscript PropVersionCaps PropAlg PropCerts PropChal PropGeneric PropTables PropDer RspParts RspStep RspPanic
     PropResponder ReqStep ReqMsg PropRequester PropReqState PropReqLimits ReqPanic PropReqPanic SpecVerdict RspVerdict Functional Sample SampleRun SampleReq.

#[local] Opaque chain_bytes.
#[local] Arguments Nat.leb : simpl never.
Section PropAgree.
Variables (cq : Config) (kq : Crypto) (cr : Config) (kr : Crypto).

(** Both sides are in these states and have the same log. *)
Definition paired root slots (log : list N) (Q : Requester) (R : Responder) (sq : ReqStates) (sr : RspStates) : Prop :=
  req_root Q = root /\ req_state Q = Some sq /\ @t_wf cq (req_transcript Q) /\ t_get (req_transcript Q) = log /\
  @reached cr kr slots R /\ rsp_state R = Some sr /\ t_get (rsp_transcript R) = log.

(** One exchange leading to [log'] and these states: it succeeds when the log fits
    both transcripts, and cannot succeed otherwise. *)
Definition step_spec root slots i log' Q R req out b sq' sr' : Prop :=
  (length log' <= @TRANSCRIPT_SIZE cq -> length log' <= @TRANSCRIPT_SIZE cr ->
   exists Q' R', exchanged cq kq cr kr i Q R req out b Q' R' /\ paired root slots log' Q' R' sq' sr') /\
  (forall req2 out2 b2 Q2 R2, exchanged cq kq cr kr i Q R req2 out2 b2 Q2 R2 ->
   length log' <= @TRANSCRIPT_SIZE cq /\ length log' <= @TRANSCRIPT_SIZE cr).
Lemma exchange_ok root slots log log1 log' log2 Q R sq sr sq1 sq' sr' i req out :
  @req_setting cq kq -> @setting cr kr slots -> fresh_ok (in_fresh i) -> @rnd_ok (in_rnd i) ->
  paired root slots log Q R sq sr ->
  @requested cq kq (in_fresh i) sq log req sq1 log1 -> st_ok sq1 ->
  @served cr kr slots (in_rnd i) req sr log out sr' log' ->
  @accepted cq kq root out sq1 log1 sq' log2 -> log2 = log' ->
  bytes req -> bytes out -> length req <= length (in_reqbuf i) -> length out <= length (in_rspbuf i) ->
  length log1 <= length log' ->
  step_spec root slots i log' Q R req out (match sq' with ReqNewSession => true | _ => false end) sq' sr'.
Proof.
  intros HQ HR FR RN (P1 & P2 & P3 & P4 & P5 & P6 & P7) RQ SO SV AC -> B1 B2 L1 L2 L3. split.
  - intros L4 L5.
    rewrite <- P4 in RQ. destruct (@next_complete cq kq Q sq (in_fresh i) (in_reqbuf i) req sq1 log1 P3 P2 RQ L1 ltac:(lia)) as (Q1 & N1 & N2 & N3 & N4 & N5).
    rewrite <- P7 in SV. destruct (@step_complete cr kr slots R (in_rnd i) req (in_rspbuf i) sr out sr' log' HR P5 B1 RN P6 SV L2 L5) as (R' & S1 & S2 & S3).
    rewrite <- N4 in AC. rewrite <- P1, <- N2 in AC.
    destruct (@handle_complete cq kq Q1 out sq1 sq' log' B2 HQ N3 SO N5 AC L4) as (Q' & A1 & A2 & A3 & A4 & A5).
    exists Q', R'. split.
    + split; [exact B1|]. split; [exact B2|]. exists Q1. eexists. eexists. split; [exact N1|]. split; [exact S1|exact A1].
    + split; [congruence|]. split; [exact A2|]. split; [exact A4|]. split; [exact A5|]. split; [|split; [exact S2|exact S3]].
      eapply (@reached_handle cr kr); [exact P5|exact B1|exact RN|exact S1].
  - intros req2 out2 b2 Q2 R2 (_ & _ & Q1 & qb & rb & E1 & E2 & E3).
    destruct (@next_sound cq kq Q (in_fresh i) (in_reqbuf i) req2 qb Q1 P3 E1) as (st0 & st1 & lg & X1 & X2 & X3 & X4 & _ & X5 & X6 & X7 & X8).
    rewrite P2 in X1. injection X1 as <-. rewrite P4 in X2. destruct (@requested_unique cq kq _ _ _ _ _ _ _ _ _ RQ X2) as (<- & <- & <-).
    destruct (@step_sound cr kr slots R (in_rnd i) req (in_rspbuf i) out2 rb R2 HR P5 B1 RN E2) as (s0 & s1 & lg & Y1 & Y2 & Y3 & Y4 & _ & _ & Y5).
    rewrite P6 in Y1. injection Y1 as <-. rewrite P7 in Y4. destruct (@served_unique cr kr _ _ _ _ _ _ _ _ _ _ _ HR B1 RN SV Y4) as (<- & <- & <-).
    split; [|exact Y5].
    destruct (@handle_sound cq kq Q1 out b2 Q2 sq1 B2 HQ X6 SO X8 E3) as (st' & _ & _ & _ & W' & A). rewrite X7, X5, P1 in A.
    destruct (@accepted_unique cq kq _ _ _ _ _ _ _ _ HQ B2 SO AC A) as (_ & ->). rewrite (@t_get_length cq) by exact W'. apply W'.
Qed.
(** Calls are functions. *)
Lemma step_advance root slots i log' Q R req out b sq' sr' req2 out2 b2 Q2 R2 :
  step_spec root slots i log' Q R req out b sq' sr' -> exchanged cq kq cr kr i Q R req2 out2 b2 Q2 R2 ->
  length log' <= @TRANSCRIPT_SIZE cq /\ length log' <= @TRANSCRIPT_SIZE cr /\ b2 = b /\ paired root slots log' Q2 R2 sq' sr'.
Proof.
  intros [S1 S2] X. destruct (S2 _ _ _ _ _ X) as [L1 L2]. destruct (S1 L1 L2) as (Q' & R' & (_ & _ & Q1 & qb & rb & A1 & A2 & A3) & P).
  destruct X as (_ & _ & Q3 & qb' & rb' & B1 & B2 & B3). rewrite A1 in B1. injection B1 as <- <- <-. rewrite A2 in B2. injection B2 as <- <- <-.
  rewrite A3 in B3. injection B3 as <- <-. auto.
Qed.

Lemma named_only parse l names v : name_table parse l -> flags_named parse names v -> only_bits l v.
Proof.
  intros [T _] F i H. apply F in H as (s & w & _ & P & TB). apply T in P as (j & I1 & ->).
  rewrite N.pow2_bits_eqb in TB. apply N.eqb_eq in TB. now subst.
Qed.
Lemma named_bit parse names v i : flags_named parse names v -> N.testbit v i = true -> names <> [].
Proof. intros F H ->. apply F in H as (s & w & [] & _). Qed.
Lemma p256_offer na : @built cq kq -> @SIGNING_ALGOS cq <> [] -> @own_offer cq kq na -> na_base_asym_algo na = 0x10%N.
Proof.
  intros B NE (_ & _ & F & _). destruct (@built_facts cq kq B) as (_ & _ & SA & _).
  apply N.bits_inj. intros i. destruct (N.testbit (na_base_asym_algo na) i) eqn:E.
  - apply F in E as (s & w & I & P & TB). rewrite (SA s I) in P. vm_compute in P. injection P as <-. now rewrite TB.
  - destruct (N.testbit 16 i) eqn:E2; [|auto]. exfalso.
    enough (X : N.testbit (na_base_asym_algo na) i = true) by congruence. apply F. destruct (@SIGNING_ALGOS cq) as [|s l] eqn:EL; [congruence|].
    exists s, 16%N. split; [left; auto|]. split; [|exact E2]. rewrite (SA s); [reflexivity|left; auto].
Qed.
Lemma offer_exists : @built cq kq -> exists na, @own_offer cq kq na.
Proof.
  intros (c & H). pose proof (@C44_accepted_config_never_fails kq _ _ _ _ _ H) as (_ & _ & _ & _ & _ & (m & H1 & _) & _).
  exists m. now apply offer_named.
Qed.

(** * The messages *)
Lemma bytes_capabilities flags : bytes (capabilities_layout 12 flags).
Proof. unfold capabilities_layout. repeat (apply bytes_app; split); try apply bytes_zeros; try apply bytes_u32le. apply bytes_one. reflexivity. Qed.
Lemma picked_low offer c : lowest_of offer c -> picked_from offer c.
Proof. intros (i & A & _ & B). exists i. auto. Qed.
Lemma low_check offer i : N.testbit offer i = true ->
  forallb (fun k => negb (N.testbit offer (N.of_nat k))) (seq 0 (N.to_nat i)) = true -> lowest_of offer (2 ^ i).
Proof.
  intros A B. exists i. split; [auto|]. split; [|auto]. intros j L. rewrite forallb_forall in B. specialize (B (N.to_nat j)).
  rewrite N2Nat.id in B. apply negb_true_iff, B, in_seq. lia.
Qed.
Ltac low i := apply (low_check _ i); reflexivity.
Lemma lowest_hash h : h = 7%N \/ h = 1%N -> lowest_of h 1.
Proof. intros [-> | ->]; low 0%N. Qed.
Lemma lowest_asym : lowest_of 0x10 0x10.
Proof. low 4%N. Qed.

(** * The run *)
Variables (root : list N) (slots : list (option FilledSlot)) (ownq ownr : N) (f : FilledSlot).
Hypotheses (BQ : @built cq kq) (BR : @built cr kr) (HQ : @hash_contract kq) (HR : @hash_contract kr).
Hypotheses (SH : forall d, @sha kq 1%N d = @sha kr 1%N d) (RN : @feature_rand cq = @feature_rand cr).
Hypotheses (SA : @SIGNING_ALGOS cq <> []) (NQ : flags_named ReqFlags_from_str (@CAPABILITIES cq) ownq)
           (NR : flags_named RspFlags_from_str (@CAPABILITIES cr) ownr).
Hypotheses (LS : length slots = @NUM_SLOTS cr) (MQ : 32 <= @MAX_DIGEST_SIZE cq) (MR : 32 <= @MAX_DIGEST_SIZE cr).
Hypotheses (S0 : nth_error slots 0 = Some (Some f)) (SF : forall i c, slot_chain slots i = Some c -> @chain_fits cr c)
           (GS : good_slot cq kq root f).
Let size := length (chain_bytes (fs_chain f)).

Let v11 := mkVE 1 1 0 0.
Let id := mkRspId 12 ownq 12 ownr agreed_algorithms.
Let hq : N := match @provider kq with ProviderRing => 7 | ProviderNone => 1 end%N.
Let neg := mkNA 1 0x10 hq 4 own_structs.
Let offer := offer_msg neg.
Let selection : list N :=
  [0x11; 0x63]%N ++ algorithms_layout 4 52 1 1 0x10 1 (no_ext [Dhe 2; Aead 2; ReqBaseAsym 0x10; KeySchedule 1]%N).
Let log1 := get_version_bytes ++ version_reply.
Let caps := [0x11; 0x61]%N ++ capabilities_layout 12 ownr.
Let log2 := log1 ++ capabilities_msg ownq ++ caps.
Let log3 := log2 ++ offer ++ selection.

Lemma SQ : @req_setting cq kq. Proof. now apply built_setting. Qed.
Lemma SR : @setting cr kr slots.
Proof. destruct (@built_facts cr kr BR) as (A & _). split; [auto|]. split; [lia|auto]. Qed.
Lemma own_offer_neg : @own_offer cq kq neg.
Proof.
  destruct (offer_exists BQ) as (na & O). pose proof (p256_offer na BQ SA O) as E. destruct O as (O1 & O2 & O3 & O4 & O5 & O6).
  destruct na as [a1 a2 a3 a4 a5]. cbn in *. subst. repeat split; auto; cbn [na_base_asym_algo neg]; apply O3.
Qed.
Lemma names_q name : In name (@CAPABILITIES cq) -> ReqFlags_from_str name <> None.
Proof. intros I. destruct BQ as (c & H). pose proof (@C44_accepted_config_never_fails kq _ _ _ _ _ H) as (_ & A & _). destruct (A _ I) as ((x & ->) & _). discriminate. Qed.
Lemma names_r name : In name (@CAPABILITIES cr) -> RspFlags_from_str name <> None.
Proof. intros I. destruct BR as (c & H). pose proof (@C44_accepted_config_never_fails kr _ _ _ _ _ H) as (_ & A & _). destruct (A _ I) as (_ & (x & ->)). discriminate. Qed.

Definition ready (i : step_input) := input_ok (260 + size) i.

Lemma run1 i : ready i ->
  step_spec root slots i log1 (@requester_new cq root) (@responder_new cr slots) get_version_bytes version_reply false (ReqCapabilities (mkReqCap v11 None None None None)) (RspCapabilities (mkRspCap None None None None)).
Proof.
  intros (F1 & F2 & F3 & F4).
  apply (exchange_ok root slots [] get_version_bytes log1 log1 _ _ ReqVersion RspVersion ReqVersion
           (ReqCapabilities (mkReqCap v11 None None None None)) (RspCapabilities (mkRspCap None None None None)) i get_version_bytes version_reply SQ SR F1 F2).
  - split; [reflexivity|]. split; [reflexivity|]. split; [apply t_new_wf|]. split; [reflexivity|].
    split; [exists []; split; [constructor|reflexivity]|]. split; reflexivity.
  - constructor.
  - exact I.
  - apply served_version; [discriminate|]. exists []. reflexivity.
  - apply (accepted_version root version_reply get_version_bytes [mkVE 1 0 0 0; v11]).
    + exists []. reflexivity.
    + repeat constructor.
    + simpl. lia.
    + split; [right; left; reflexivity|]. split; [right; left; reflexivity|]. intros w _ [<-|[<-|[]]]; vm_compute; discriminate.
  - reflexivity.
  - apply bytes_check. reflexivity.
  - apply bytes_check. reflexivity.
  - simpl. lia.
  - simpl. lia.
  - apply Nat.leb_le. reflexivity.
Qed.
Lemma run2 i Q0 R0 : ready i ->
  paired root slots log1 Q0 R0 (ReqCapabilities (mkReqCap v11 None None None None)) (RspCapabilities (mkRspCap None None None None)) ->
  step_spec root slots i log2 Q0 R0 (capabilities_msg ownq) caps false (ReqAlgorithms (mkReqAlg v11 12 ownq 12 ownr None None)) (RspAlgorithms (mkRspAlg 12 ownq 12 ownr None)).
Proof.
  intros (F1 & F2 & F3 & F4) P.
  eapply (exchange_ok root slots log1 (log1 ++ capabilities_msg ownq) log2 _ _ _ _ _ _
           (ReqAlgorithms (mkReqAlg v11 12 ownq 12 ownr None None)) (RspAlgorithms (mkRspAlg 12 ownq 12 ownr None)) i (capabilities_msg ownq) caps SQ SR F1 F2 P).
  - apply requested_capabilities; [exact names_q|exact NQ|reflexivity].
  - exact I.
  - eapply served_capabilities; [exists []; rewrite app_nil_r; reflexivity| |exact names_r|exact NR|reflexivity].
    eapply named_only; [exact C49_requester_flag_names|exact NQ].
  - eapply accepted_capabilities; [reflexivity|reflexivity|exists []; rewrite app_nil_r; reflexivity|].
    eapply named_only; [exact C49_responder_flag_names|exact NR].
  - unfold log2. rewrite <- !app_assoc. reflexivity.
  - apply bytes_app. split; [apply bytes_check; reflexivity|apply bytes_capabilities].
  - apply bytes_app. split; [apply bytes_check; reflexivity|apply bytes_capabilities].
  - simpl. lia.
  - simpl. lia.
  - apply Nat.leb_le. reflexivity.
Qed.
Lemma hq_cases : hq = 7%N \/ hq = 1%N.
Proof. unfold hq. destruct (@provider kq); auto. Qed.
Lemma selection_fmt : algorithms_fmt (skipn 2 selection) agreed_algorithms.
Proof.
  exists 52%N, (no_ext [Dhe 2; Aead 2; ReqBaseAsym 0x10; KeySchedule 1]%N). split; [lia|]. split; [|split].
      * repeat (constructor; [split; [|exists 0; split; [lia|reflexivity]]|]); [| | | |constructor];
          unfold alg_struct_ok, only_bits; cbn [fst alg_struct_bits alg_struct_fixed]; intros j TB.
        -- change 2%N with (2 ^ 1)%N in TB. rewrite N.pow2_bits_eqb in TB. apply N.eqb_eq in TB. subst j. simpl. auto.
        -- change 2%N with (2 ^ 1)%N in TB. rewrite N.pow2_bits_eqb in TB. apply N.eqb_eq in TB. subst j. simpl. auto.
        -- change 16%N with (2 ^ 4)%N in TB. rewrite N.pow2_bits_eqb in TB. apply N.eqb_eq in TB. subst j. simpl. auto 10.
        -- change 1%N with (2 ^ 0)%N in TB. rewrite N.pow2_bits_eqb in TB. apply N.eqb_eq in TB. subst j. simpl. auto.
      * unfold alg_one_bit. repeat constructor; [exists 1%N|exists 1%N|exists 4%N|exists 0%N]; simpl; auto 10.
      * split; [exists 0%N; simpl; auto|]. split; [exists 0%N; simpl; auto|]. split; [exists 4%N; simpl; auto 10|]. split; [exists 0%N; simpl; auto|].
        split; [reflexivity|]. split; [split; [simpl; lia|reflexivity]|]. reflexivity.
Qed.
Lemma selection_sel : selection_ok neg own_structs agreed_algorithms [Dhe 2; Aead 2; ReqBaseAsym 0x10; KeySchedule 1]%N.
Proof.
  pose proof hq_cases as HH.
  split; [reflexivity|]. split; [apply picked_low, lowest_asym|]. split; [apply picked_low, (lowest_hash _ HH)|]. split; [apply picked_low, (lowest_hash _ HH)|].
      intros e g IE IF ET. apply picked_low.
      destruct IE as [<-|[<-|[<-|[<-|[]]]]]; destruct IF as [<-|[<-|[<-|[<-|[]]]]]; try discriminate ET; [low 1%N|low 1%N|low 4%N|low 0%N].
Qed.
Lemma run3 i Q0 R0 : ready i ->
  paired root slots log2 Q0 R0 (ReqAlgorithms (mkReqAlg v11 12 ownq 12 ownr None None)) (RspAlgorithms (mkRspAlg 12 ownq 12 ownr None)) ->
  step_spec root slots i log3 Q0 R0 offer selection (negb (both cert_bit ownq ownr))
      (if both cert_bit ownq ownr then ReqIdAuth (mkReqId v11 12 ownq 12 ownr agreed_algorithms None None) else ReqNewSession) (RspIdAuth id).
Proof.
  intros (F1 & F2 & F3 & F4) P.
  replace (negb (both cert_bit ownq ownr)) with
    (match (if both cert_bit ownq ownr then ReqIdAuth (mkReqId v11 12 ownq 12 ownr agreed_algorithms None None) else ReqNewSession) with
     | ReqNewSession => true | _ => false end) by (destruct (both cert_bit ownq ownr); reflexivity).
  pose proof hq_cases as HH.
  assert (HB : only_bits hash_bits hq).
  { unfold only_bits, hash_bits. intros j. destruct (N.lt_ge_cases j 6) as [L|L].
    - intros _. assert (j = 0 \/ j = 1 \/ j = 2 \/ j = 3 \/ j = 4 \/ j = 5)%N by lia. simpl. intuition subst; auto.
    - rewrite N.bits_above_log2; [discriminate|]. destruct HH as [-> | ->]; cbn; lia. }
  eapply (exchange_ok root slots log2 (log2 ++ offer) log3 _ _ _ _ _ _ _ (RspIdAuth id) i offer selection SQ SR F1 F2 P).
  - apply requested_algorithms; [exact own_offer_neg|reflexivity].
  - cbn [st_ok qa_negotiate]. intros na [= <-]. exists own_structs, []. split; reflexivity.
  - eapply (served_algorithms slots (in_rnd i) offer (mkRspAlg 12 ownq 12 ownr None) log2 _ neg agreed_algorithms own_structs [Dhe 2; Aead 2; ReqBaseAsym 0x10; KeySchedule 1]%N).
    + exists []. rewrite app_nil_r. reflexivity.
    + exists 48%N, [], [], (no_ext own_structs). split; [lia|]. split; [exists 0; split; [lia|reflexivity]|].
      split; [exists 0; split; [lia|reflexivity]|]. split.
      { repeat (constructor; [split; [|exists 0; split; [lia|reflexivity]]|]); [| | | |constructor];
          unfold alg_struct_ok, only_bits; cbn [fst alg_struct_bits alg_struct_fixed]; intros j TB.
        - destruct (N.lt_ge_cases j 6) as [L|L]; [|rewrite N.bits_above_log2 in TB; [discriminate|cbn; lia]].
          assert (j = 0 \/ j = 1 \/ j = 2 \/ j = 3 \/ j = 4 \/ j = 5)%N by lia. simpl. intuition subst; auto.
        - destruct (N.lt_ge_cases j 3) as [L|L]; [|rewrite N.bits_above_log2 in TB; [discriminate|cbn; lia]].
          assert (j = 0 \/ j = 1 \/ j = 2)%N by lia. simpl. intuition subst; auto.
        - destruct (N.lt_ge_cases j 9) as [L|L]; [|rewrite N.bits_above_log2 in TB; [discriminate|cbn; lia]].
          assert (j = 0 \/ j = 1 \/ j = 2 \/ j = 3 \/ j = 4 \/ j = 5 \/ j = 6 \/ j = 7 \/ j = 8)%N by lia. simpl. intuition subst; auto 10.
        - destruct (N.lt_ge_cases j 1) as [L|L]; [|rewrite N.bits_above_log2 in TB; [discriminate|cbn; lia]].
          assert (j = 0)%N by lia. simpl. auto. }
      cbn [neg na_measurement_spec na_base_asym_algo na_base_hash_algo na_num_requests na_requests].
      split. { intros j TB. destruct (N.lt_ge_cases j 1) as [L|L]; [|rewrite N.bits_above_log2 in TB; [discriminate|cbn; lia]]. left. lia. }
      split. { intros j TB. change 16%N with (2 ^ 4)%N in TB. rewrite N.pow2_bits_eqb in TB. apply N.eqb_eq in TB. subst j. simpl. auto 10. }
      split; [exact HB|]. split; [reflexivity|]. split; [split; [simpl; lia|reflexivity]|]. reflexivity.
    + split; [reflexivity|]. split; [split; [simpl; lia|reflexivity]|]. split; [reflexivity|]. split; [split; [simpl; lia|reflexivity]|].
      split. { repeat (constructor; [split; [reflexivity|left]|]); [low 1%N|low 1%N|low 4%N|low 0%N|constructor]. }
      split; [reflexivity|]. split; [left; exact (lowest_hash _ HH)|]. split; [reflexivity|]. left. exact lowest_asym.
    + reflexivity.
  - eapply (accepted_algorithms root selection (mkReqAlg v11 12 ownq 12 ownr (Some neg) None) (log2 ++ offer) neg own_structs agreed_algorithms [Dhe 2; Aead 2; ReqBaseAsym 0x10; KeySchedule 1]%N).
    + reflexivity.
    + reflexivity.
    + exists []. reflexivity.
    + exists []. rewrite app_nil_r. reflexivity.
    + exact selection_fmt.
    + reflexivity.
    + split; [simpl; lia|reflexivity].
    + exact selection_sel.
    + reflexivity.
  - unfold log3. rewrite <- !app_assoc. reflexivity.
  - unfold offer, offer_msg. repeat (apply bytes_app; split); first [apply bytes_u32le|apply bytes_check; reflexivity].
  - apply bytes_check. reflexivity.
  - simpl. lia.
  - simpl. lia.
  - apply Nat.leb_le. reflexivity.
Qed.

(** ** Authentication *)
Lemma ring_q : both cert_bit ownq ownr = true -> @provider kq = ProviderRing.
Proof. intros H. exact (@built_ring cq kq ownq BQ NQ ownr H). Qed.
Lemma ring_r : both cert_bit ownq ownr = true -> @provider kr = ProviderRing.
Proof.
  intros H. destruct (@built_facts cr kr BR) as (_ & _ & _ & PN). destruct (@provider kr); [auto|]. exfalso.
  unfold both in H. apply andb_true_iff in H as [_ H]. eapply named_bit; [exact NR|exact H|auto].
Qed.
Let digs := @slot_chain_digest kr 1 slots.
Lemma digs_len i : length (digs i) = 32.
Proof. unfold digs, slot_chain_digest. apply HR. left; reflexivity. Qed.
Lemma digs_bytes i : bytes (digs i).
Proof. unfold digs, slot_chain_digest. apply HR. left; reflexivity. Qed.
Lemma concat_digs l : length (concat (map digs l)) = 32 * length l.
Proof. induction l as [|x l IH]; [reflexivity|]. cbn [map concat]. rewrite app_length, digs_len, IH. simpl. lia. Qed.
Lemma filter_len {A} (P : A -> bool) l : length (filter P l) <= length l.
Proof. induction l as [|x l IH]; simpl; [lia|]. destruct (P x); simpl; lia. Qed.
Lemma filter_none {A} (P : A -> bool) l : (forall x, In x l -> P x = false) -> filter P l = [].
Proof. induction l as [|x l IH]; simpl; [auto|]. intros H. rewrite (H x) by auto. apply IH. auto. Qed.

Variables (mask : N).
Hypothesis (MK : mask_of_slots slots mask).
Let digests := [0x11; 0x01]%N ++ digests_layout (@NUM_SLOTS cr) mask digs.
Let d := mkDigests mask (map (fun i => if slot_in_mask mask i then Some (digs i) else None) (seq 0 (@NUM_SLOTS cq))).
Let log4 := log3 ++ get_digests_msg ++ digests.
Let idq := mkReqId v11 12 ownq 12 ownr agreed_algorithms (Some d) None.

Lemma d_nth i : i < @NUM_SLOTS cq -> nth_error (d_digests d) i = Some (if slot_in_mask mask i then Some (digs i) else None).
Proof.
  intros L. unfold d. cbn [d_digests]. rewrite nth_error_map. rewrite (nth_error_nth' _ 0) by now rewrite seq_length.
  rewrite seq_nth by auto. reflexivity.
Qed.
Lemma digests_exact : length digests = 4 + 32 * occupied slots.
Proof.
  unfold digests, digests_layout. rewrite !app_length, concat_digs, <- LS, (@mask_count slots mask (proj2 MK)). change (length (zeros 1)) with 1. cbn [length]. lia.
Qed.
Lemma digests_len : length digests <= 260.
Proof.
  rewrite digests_exact. assert (occupied slots <= length slots) by (unfold occupied; apply filter_len). destruct (@built_facts cr kr BR) as (A & _). lia.
Qed.
Lemma digests_prefix : starts_with ([0x11; 0x01]%N ++ digests_layout (@NUM_SLOTS cq) mask (slot_digest d)) digests.
Proof.
  assert (X : exists rest, concat (map digs (filter (slot_in_mask mask) (seq 0 (@NUM_SLOTS cr)))) =
     concat (map (slot_digest d) (filter (slot_in_mask mask) (seq 0 (@NUM_SLOTS cq)))) ++ rest).
  { replace (map (slot_digest d) (filter (slot_in_mask mask) (seq 0 (@NUM_SLOTS cq))))
      with (map digs (filter (slot_in_mask mask) (seq 0 (@NUM_SLOTS cq)))).
    2: { apply map_ext_in. intros i I. apply filter_In in I as [I B]. apply in_seq in I. unfold slot_digest. rewrite d_nth by lia. now rewrite B. }
    destruct (Nat.le_gt_cases (@NUM_SLOTS cq) (@NUM_SLOTS cr)) as [L|L].
    - replace (@NUM_SLOTS cr) with (@NUM_SLOTS cq + (@NUM_SLOTS cr - @NUM_SLOTS cq)) by lia.
      rewrite seq_app, filter_app, map_app, concat_app. eauto.
    - exists []. rewrite app_nil_r. replace (@NUM_SLOTS cq) with (@NUM_SLOTS cr + (@NUM_SLOTS cq - @NUM_SLOTS cr)) by lia.
      rewrite seq_app, filter_app, map_app, concat_app. rewrite (filter_none _ (seq (0 + _) _)); [now rewrite app_nil_r|].
      intros i I. apply in_seq in I. destruct (slot_in_mask mask i) eqn:E; [|auto]. apply MK in E as (c & E).
      unfold slot_chain in E. rewrite (proj2 (nth_error_None slots i)) in E by lia. discriminate. }
  destruct X as (rest & X). exists rest. unfold digests, digests_layout. rewrite X, <- !app_assoc. reflexivity.
Qed.
Lemma digests_bytes : bytes digests.
Proof.
  unfold digests, digests_layout. repeat (apply bytes_app; split).
  - apply bytes_check; reflexivity.
  - apply bytes_check; reflexivity.
  - apply bytes_one. apply MK.
  - apply bytes_concat_map. apply Forall_forall. intros. apply digs_bytes.
Qed.
Lemma usable_r : both cert_bit ownq ownr = true -> @hash_usable cr kr 1.
Proof. intros H. split; [now apply ring_r|]. split; [left; reflexivity|]. exact MR. Qed.
Lemma log3_len : length log3 = 138. Proof. reflexivity. Qed.
Lemma log4_exact : length log4 = 138 + (4 + (4 + 32 * occupied slots)).
Proof. unfold log4. rewrite !app_length, log3_len, digests_exact. reflexivity. Qed.

Lemma run4 i Q0 R0 : both cert_bit ownq ownr = true -> ready i ->
  paired root slots log3 Q0 R0 (ReqIdAuth (mkReqId v11 12 ownq 12 ownr agreed_algorithms None None)) (RspIdAuth id) ->
  step_spec root slots i log4 Q0 R0 get_digests_msg digests false (ReqIdAuth idq) (RspIdAuth id).
Proof.
  intros BC (F1 & F2 & F3 & F4) P. pose proof digests_len as LD. pose proof log3_len as L3.
  eapply (exchange_ok root slots log3 (log3 ++ get_digests_msg) log4 _ _ _ _ _ _ (ReqIdAuth idq) (RspIdAuth id) i get_digests_msg digests SQ SR F1 F2 P).
  - apply requested_digests; reflexivity.
  - exact I.
  - eapply (served_digests slots (in_rnd i) get_digests_msg id log3 mask).
    + exists [0; 0]%N. reflexivity.
    + simpl. lia.
    + exact MK.
    + intros j c E. split; [eauto|now apply usable_r].
    + reflexivity.
  - apply (accepted_digests root digests (mkReqId v11 12 ownq 12 ownr agreed_algorithms None None) _ d).
    + reflexivity.
    + left. reflexivity.
    + exact MQ.
    + simpl. lia.
    + exact digests_prefix.
    + split; [unfold d; cbn [d_digests]; rewrite map_length; apply seq_length|]. intros j L. rewrite d_nth by auto. change (d_slot_mask d) with mask.
      split; intros ->; [|reflexivity]. eexists. split; [reflexivity|]. apply digs_len.
  - unfold log4. rewrite <- !app_assoc. reflexivity.
  - apply bytes_check. reflexivity.
  - exact digests_bytes.
  - simpl. lia.
  - lia.
  - unfold log4. rewrite !app_length. lia.
Qed.

Let chain := chain_bytes (fs_chain f).
Let certificate := [0x11; 0x02]%N ++ certificate_layout 0 chain 0.
Let log5 := log4 ++ @get_certificate_msg cq ++ certificate.
Let stored := chain ++ zeros (@MAX_CERT_CHAIN_SIZE cq - length chain).
Let chal := ReqChallenge (mkReqChal v11 12 ownq 12 ownr agreed_algorithms 0 stored (N.of_nat (length chain)) None).
Lemma chain0 : slot_chain slots 0 = Some (fs_chain f).
Proof. unfold slot_chain. now rewrite S0. Qed.
Lemma log5_exact : length log5 = 138 + (4 + (4 + 32 * occupied slots)) + (8 + (8 + size)).
Proof.
  unfold log5, certificate, certificate_layout, get_certificate_msg, get_certificate_layout. rewrite !app_length, log4_exact.
  change (length chain) with size. change (length (zeros 1)) with 1. cbn [length u16le]. lia.
Qed.
Lemma fits : (N.of_nat size < 65536)%N. Proof. exact (proj2 (SF _ _ chain0)). Qed.
Lemma run5 i Q0 R0 : both cert_bit ownq ownr = true -> ready i -> paired root slots log4 Q0 R0 (ReqIdAuth idq) (RspIdAuth id) ->
  step_spec root slots i log5 Q0 R0 (@get_certificate_msg cq) certificate (negb (both chal_bit ownq ownr)) (if both chal_bit ownq ownr then chal else ReqNewSession) (RspChallenge id).
Proof.
  intros BC (F1 & F2 & F3 & F4) P. pose proof fits as FT.
  replace (negb (both chal_bit ownq ownr)) with
    (match (if both chal_bit ownq ownr then chal else ReqNewSession) with ReqNewSession => true | _ => false end)
    by (destruct (both chal_bit ownq ownr); reflexivity).
  assert (LC : length certificate = 8 + size).
  { unfold certificate, certificate_layout. rewrite !app_length. change (length chain) with size. change (length (zeros 1)) with 1. cbn [length u16le]. lia. }
  eapply (exchange_ok root slots log4 (log4 ++ (@get_certificate_msg cq)) log5 _ _ _ _ _ _ _ (RspChallenge id) i (@get_certificate_msg cq) certificate SQ SR F1 F2 P).
  - apply requested_certificate; [discriminate| |reflexivity]. destruct (@built_facts cq kq BQ) as (A & _). lia.
  - exact I.
  - eapply (served_certificate slots (in_rnd i) (@get_certificate_msg cq) id log4 0 0 (N.of_nat (@MAX_CERT_CHAIN_SIZE cq) mod 65536)).
    + exists []. rewrite app_nil_r. reflexivity.
    + lia.
    + apply N.mod_lt. lia.
    + destruct (@built_facts cr kr BR) as (A & _). simpl. lia.
    + intros c. apply SF.
    + unfold slot_chain_bytes. change (N.to_nat 0) with 0. rewrite chain0. reflexivity.
  - eapply (accepted_certificate root certificate idq _ (mkCertificate 0 (N.of_nat size) 0 stored) chain).
    + discriminate.
    + exists []. rewrite app_nil_r. reflexivity.
    + split; [apply GS|]. split; [exact FT|]. split; [reflexivity|]. split; [cbn; lia|reflexivity].
    + reflexivity.
  - unfold log5. rewrite <- !app_assoc. reflexivity.
  - unfold get_certificate_msg, get_certificate_layout. repeat (apply bytes_app; split); try apply bytes_u16le; try apply bytes_check; reflexivity.
  - unfold certificate, certificate_layout. repeat (apply bytes_app; split); try apply bytes_u16le; try (apply bytes_check; reflexivity). apply GS.
  - unfold get_certificate_msg, get_certificate_layout. rewrite !app_length. change (length (zeros 1)) with 1. cbn [length u16le]. lia.
  - lia.
  - unfold log5. rewrite !app_length. lia.
Qed.

Variables (fresh : list N) (rnd : Rnd).
Hypotheses (FR : fresh_ok fresh) (RO : @rnd_ok rnd).
Let ask := challenge_msg 0 (@wire_nonce cq fresh).
Let auth := @unsigned_auth kr id slots 0 mask (@wire_nonce cr (rnd_nonce rnd)).
Let log6 := log5 ++ ask ++ auth.
Lemma wire_len c l : length l = 32 -> length (@wire_nonce c l) = if @feature_rand c then 32 else 0.
Proof. unfold wire_nonce. destruct (@feature_rand c); simpl; lia. Qed.
Lemma wire_bytes c l : bytes l -> bytes (@wire_nonce c l).
Proof. unfold wire_nonce. destruct (@feature_rand c); [auto|constructor]. Qed.
Lemma wire_ok c c' l : @feature_rand c = @feature_rand c' -> length l = 32 -> @nonce_ok c (@wire_nonce c' l).
Proof. unfold nonce_ok, wire_nonce. intros ->. destruct (@feature_rand c'); auto. Qed.
Lemma ask_exact : length ask = 4 + if @feature_rand cq then 32 else 0.
Proof. unfold ask, challenge_msg, challenge_layout. rewrite !app_length, (wire_len cq fresh (proj1 FR)). cbn [length]. lia. Qed.
Lemma ask_len : length ask <= 36.
Proof. rewrite ask_exact. destruct (@feature_rand cq); lia. Qed.
Lemma auth_eq : auth = [0x11; 0x03; 0]%N ++ [mask] ++ digs 0 ++ @wire_nonce cr (rnd_nonce rnd) ++ zeros 32 ++ [4; 0; 0; 0; 0; 0]%N.
Proof. unfold auth, unsigned_auth. destruct (both_mutual id); reflexivity. Qed.
Lemma auth_exact : length auth = 4 + 32 + (if @feature_rand cq then 32 else 0) + 32 + 6.
Proof. rewrite auth_eq, !app_length, digs_len, (wire_len cr _ (proj1 RO)), RN. change (length (zeros 32)) with 32. cbn [length]. lia. Qed.
Lemma auth_len : length auth <= 106.
Proof. rewrite auth_exact. destruct (@feature_rand cq); lia. Qed.
Lemma log6_exact : length log6 = length log5 + ((4 + if @feature_rand cq then 32 else 0) + (4 + 32 + (if @feature_rand cq then 32 else 0) + 32 + 6)).
Proof. unfold log6. now rewrite !app_length, ask_exact, auth_exact. Qed.
Lemma auth_bytes : bytes auth.
Proof.
  rewrite auth_eq. repeat (apply bytes_app; split); try (apply bytes_check; reflexivity).
  - apply bytes_one, MK.
  - apply digs_bytes.
  - apply wire_bytes, RO.
Qed.
Lemma run6 i Q0 R0 : both cert_bit ownq ownr = true -> ready i -> in_fresh i = fresh -> in_rnd i = rnd -> paired root slots log5 Q0 R0 chal (RspChallenge id) ->
  exists sig, step_spec root slots i log6 Q0 R0 ask (auth ++ sig) true ReqNewSession (RspChallenge id).
Proof.
  intros BC (F1 & F2 & F3 & F4) EF ER P. pose proof fits as FT. pose proof ask_len as LA. pose proof auth_len as LU.
  destruct GS as (G1 & G2 & G3 & G4).
  destruct (G4 (rnd_sign (in_rnd i)) (@sha kr 1%N log6)) as (sig & E1 & E2 & E3 & E4); [apply HR; left; reflexivity|apply HR; left; reflexivity|].
  assert (PO : firstn (N.to_nat (N.of_nat (length chain))) stored = chain).
  { rewrite Nat2N.id. unfold stored. now rewrite firstn_app_exact by reflexivity. }
  exists sig.
  eapply (exchange_ok root slots log5 (log5 ++ ask) log6 _ _ _ _ _ _ ReqNewSession (RspChallenge id) i ask (auth ++ sig) SQ SR F1 F2 P).
  - rewrite EF. apply (requested_challenge fresh (mkReqChal v11 12 ownq 12 ownr agreed_algorithms 0 stored (N.of_nat (length chain)) None) log5 ask). reflexivity.
  - cbn [st_ok]. change (bytes stored /\ N.to_nat (N.of_nat (length chain)) <= length stored /\ (N.of_nat (length chain) < 65536)%N).
    unfold stored. rewrite app_length. split; [apply bytes_app; split; [exact G1|apply bytes_zeros]|]. split; [lia|exact FT].
  - rewrite ER. eapply (served_challenge slots rnd ask id log5 0 MHNone (@wire_nonce cq fresh) mask f 64 sig auth).
    + exists []. rewrite app_nil_r. reflexivity.
    + apply wire_ok; [auto|apply FR].
    + exact S0.
    + exact (SF _ _ chain0).
    + now apply usable_r.
    + reflexivity.
    + destruct (@built_facts cr kr BR) as (_ & -> & _). lia.
    + exact MK.
    + reflexivity.
    + rewrite <- ER. exact E1.
    + exact E2.
  - eapply (accepted_challenge root (auth ++ sig) (mkReqChal v11 12 ownq 12 ownr agreed_algorithms 0 stored (N.of_nat (length chain)) _) (log5 ++ ask)
              (mkChallengeAuth 0 mask false (digs 0) (@wire_nonce cr (rnd_nonce rnd)) (zeros 32) [] sig) 0 4 64 chain (fs_chain f)).
    + split; [now apply ring_q|]. split; [left; reflexivity|exact MQ].
    + reflexivity.
    + destruct (@built_facts cq kq BQ) as (_ & -> & _). lia.
    + left. reflexivity.
    + exists []. rewrite app_nil_r, auth_eq. unfold ca_bytes, challenge_auth_layout. cbn [ca_slot ca_use_mutual_auth ca_slot_mask ca_cert_chain_hash ca_nonce ca_measurement_summary_hash ca_opaque_data ca_signature].
      rewrite <- !app_assoc. reflexivity.
    + lia.
    + lia.
    + split; [cbn; lia|]. split; [cbn; lia|]. split; [apply digs_len|]. split; [apply wire_ok; [auto|apply RO]|]. split; [reflexivity|].
      split; [|exact E2]. split; [constructor|]. split; [cbn; lia|cbn; lia].
    + reflexivity.
    + apply (proj2 (proj2 MK 0)). exists (fs_chain f). exact chain0.
    + intros _. cbn. lia.
    + symmetry. exact PO.
    + symmetry. apply Nat2N.id.
    + exact FT.
    + cbn [ca_cert_chain_hash qh_algorithms al_base_hash agreed_algorithms]. rewrite SH. unfold digs, slot_chain_digest, slot_chain_bytes. now rewrite chain0.
    + exact G3.
    + reflexivity.
    + cbn [qh_algorithms al_base_hash al_base_asym agreed_algorithms ca_signature]. rewrite SH.
      replace ((log5 ++ ask) ++ firstn (length (auth ++ sig) - 64) (auth ++ sig)) with log6; [exact E4|].
      rewrite app_length, E2. replace (length auth + 64 - 64) with (length auth) by lia. rewrite firstn_app_exact by reflexivity.
      unfold log6. now rewrite <- app_assoc.
  - rewrite app_length, E2. replace (length auth + 64 - 64) with (length auth) by lia. rewrite firstn_app_exact by reflexivity.
    unfold log6. now rewrite <- app_assoc.
  - unfold ask, challenge_msg, challenge_layout. repeat (apply bytes_app; split); try (apply bytes_check; reflexivity). apply wire_bytes, FR.
  - apply bytes_app. split; [exact auth_bytes|exact E3].
  - lia.
  - rewrite app_length. lia.
  - unfold log6. rewrite !app_length. lia.
Qed.

(** The log at each exchange. *)
Let need := run_bytes cq slots ownq ownr f.
Lemma need_eq : need = length (if both cert_bit ownq ownr then if both chal_bit ownq ownr then log6 else log5 else log3).
Proof.
  unfold need, run_bytes. destruct (both cert_bit ownq ownr); [|reflexivity].
  destruct (both chal_bit ownq ownr); rewrite ?log6_exact, log5_exact; fold size; destruct (@feature_rand cq); lia.
Qed.
Lemma logs_grow : length log1 <= length log3 /\ length log2 <= length log3 /\ length log3 <= length log5 /\ length log4 <= length log5 /\ length log5 <= length log6.
Proof.
  split; [apply Nat.leb_le; reflexivity|]. split; [apply Nat.leb_le; reflexivity|]. unfold log6, log5, log4. rewrite !app_length. lia.
Qed.
(** What both sides know at the end. *)
Definition agreement ins : Prop :=
  exists ex Q R, faithful cq kq cr kr root slots ins ex true Q R /\
    t_get (req_transcript Q) = t_get (rsp_transcript R) /\ req_state Q = Some ReqNewSession /\
    rsp_state R = Some (if both cert_bit ownq ownr then RspChallenge id else RspIdAuth id) /\
    @told_algorithms cq kq v11 ownq 12 ownr agreed_algorithms (as_events (firstn 3 ex)) /\
    length (t_get (req_transcript Q)) = need.
Lemma told3 : @told_algorithms cq kq v11 ownq 12 ownr agreed_algorithms
  (as_events [(get_version_bytes, version_reply); (capabilities_msg ownq, caps); (offer, selection)]).
Proof.
  change (as_events _) with (((asks 1 get_version_bytes ++ [Got version_reply]) ++ asks 1 (capabilities_msg ownq) ++ [Got caps]) ++ asks 1 (offer_msg neg) ++ [Got selection]).
  apply (told_algorithms_intro v11 ownq 12 ownr agreed_algorithms _ 1 selection neg [Dhe 2; Aead 2; ReqBaseAsym 0x10; KeySchedule 1]%N (skipn 2 selection)).
  - apply (told_capabilities_intro v11 ownq 12 ownr _ 1 caps); [|exact NQ|lia| | |].
    + apply (told_version_intro v11 1 version_reply [mkVE 1 0 0 0; v11]).
      * exists []. reflexivity.
      * repeat constructor.
      * simpl. lia.
      * split; [right; left; reflexivity|]. split; [right; left; reflexivity|]. intros w _ [<-|[<-|[]]]; vm_compute; discriminate.
      * apply bytes_check. reflexivity.
    + exists []. now rewrite app_nil_r.
    + eapply named_only; [exact C49_responder_flag_names|exact NR].
    + apply bytes_app. split; [apply bytes_check; reflexivity|apply bytes_capabilities].
  - exact own_offer_neg.
  - exists []. reflexivity.
  - exact selection_fmt.
  - reflexivity.
  - split; [simpl; lia|reflexivity].
  - exact selection_sel.
  - apply bytes_check. reflexivity.
Qed.
Lemma run_all ins : Forall ready ins -> length ins = rounds ownq ownr ->
  need <= @TRANSCRIPT_SIZE cq -> need <= @TRANSCRIPT_SIZE cr ->
  (forall i, nth_error ins 5 = Some i -> in_fresh i = fresh /\ in_rnd i = rnd) -> agreement ins.
Proof.
  intros FA LN TQ TR N5. pose proof need_eq as NE. pose proof logs_grow as (G1 & G2 & G3 & G4 & G5). rewrite NE in TQ, TR.
  assert (L3 : 3 <= length ins). { rewrite LN. unfold rounds. destruct (both cert_bit ownq ownr), (both chal_bit ownq ownr); lia. }
  assert (G6 : length log3 <= length (if both cert_bit ownq ownr then if both chal_bit ownq ownr then log6 else log5 else log3)).
  { destruct (both cert_bit ownq ownr), (both chal_bit ownq ownr); lia. }
  destruct ins as [|i1 [|i2 [|i3 ins]]]; try (simpl in L3; lia). clear L3.
  inversion FA as [|? ? F1 FA1]; subst. inversion FA1 as [|? ? F2 FA2]; subst. inversion FA2 as [|? ? F3 FA3]; subst. clear FA FA1 FA2.
  destruct (proj1 (run1 i1 F1) ltac:(lia) ltac:(lia)) as (Q1 & R1 & X1 & P1). destruct (proj1 (run2 i2 Q1 R1 F2 P1) ltac:(lia) ltac:(lia)) as (Q2 & R2 & X2 & P2).
  destruct (proj1 (run3 i3 Q2 R2 F3 P2) ltac:(lia) ltac:(lia)) as (Q3 & R3 & X3 & P3).
  pose proof (faithful_step cq kq cr kr root slots _ _ _ _ _ _ _ _ _ _ (faithful_start _ _ _ _ _ _) X1) as Y1.
  pose proof (faithful_step cq kq cr kr root slots _ _ _ _ _ _ _ _ _ _ Y1 X2) as Y2.
  pose proof (faithful_step cq kq cr kr root slots _ _ _ _ _ _ _ _ _ _ Y2 X3) as Y3.
  unfold rounds in LN. destruct (both cert_bit ownq ownr) eqn:BC.
  2: { destruct ins; [|simpl in LN; lia]. eexists. eexists. eexists. split; [exact Y3|]. destruct P3 as (_ & S1 & _ & T1 & _ & S2 & T2).
       split; [congruence|]. split; [exact S1|]. rewrite BC. split; [exact S2|]. split; [exact told3|]. congruence. }
  assert (G7 : length log5 <= length (if both chal_bit ownq ownr then log6 else log5)).
  { destruct (both chal_bit ownq ownr); lia. }
  destruct ins as [|i4 [|i5 ins]]; try (destruct (both chal_bit ownq ownr); simpl in LN; lia).
  inversion FA3 as [|? ? F4 FA4]; subst. inversion FA4 as [|? ? F5 FA5]; subst.
  destruct (proj1 (run4 i4 Q3 R3 BC F4 P3) ltac:(lia) ltac:(lia)) as (Q4 & R4 & X4 & P4). destruct (proj1 (run5 i5 Q4 R4 BC F5 P4) ltac:(lia) ltac:(lia)) as (Q5 & R5 & X5 & P5).
  pose proof (faithful_step cq kq cr kr root slots _ _ _ _ _ _ _ _ _ _ Y3 X4) as Y4.
  pose proof (faithful_step cq kq cr kr root slots _ _ _ _ _ _ _ _ _ _ Y4 X5) as Y5.
  destruct (both chal_bit ownq ownr) eqn:BH.
  2: { destruct ins; [|simpl in LN; lia]. eexists. eexists. eexists. split; [exact Y5|]. destruct P5 as (_ & S1 & _ & T1 & _ & S2 & T2).
       split; [congruence|]. split; [exact S1|]. rewrite BC. split; [exact S2|]. split; [exact told3|]. congruence. }
  destruct ins as [|i6 [|i7 ins]]; try (simpl in LN; lia). inversion FA5 as [|? ? F6 FA6]; subst.
  destruct (N5 i6 eq_refl) as [E1 E2]. destruct (run6 i6 Q5 R5 BC F6 E1 E2 P5) as (sig & S6 & _). destruct (S6 ltac:(lia) ltac:(lia)) as (Q6 & R6 & X6 & P6).
  pose proof (faithful_step cq kq cr kr root slots _ _ _ _ _ _ _ _ _ _ Y5 X6) as Y6.
  eexists. eexists. eexists. split; [exact Y6|]. destruct P6 as (_ & S1 & _ & T1 & _ & S2 & T2).
  split; [congruence|]. split; [exact S1|]. rewrite BC. split; [exact S2|]. split; [exact told3|]. congruence.
Qed.
(** A run in the order of its exchanges. *)
Fixpoint chained (b0 : bool) (Q0 : Requester) (R0 : Responder) (ins : list step_input) (b : bool) (Q : Requester) (R : Responder) : Prop :=
  match ins with
  | [] => b = b0 /\ Q = Q0 /\ R = R0
  | i :: r => b0 = false /\ exists req out b1 Q1 R1, exchanged cq kq cr kr i Q0 R0 req out b1 Q1 R1 /\ chained b1 Q1 R1 r b Q R
  end.
Lemma chained_snoc ins : forall b0 Q0 R0 Q R i req out b Q' R', chained b0 Q0 R0 ins false Q R ->
  exchanged cq kq cr kr i Q R req out b Q' R' -> chained b0 Q0 R0 (ins ++ [i]) b Q' R'.
Proof.
  induction ins as [|j ins IH]; intros b0 Q0 R0 Q R i req out b Q' R'; cbn [chained app].
  - intros (<- & -> & ->) X. split; [auto|]. exists req, out, b, Q', R'. auto.
  - intros (E & req1 & out1 & b1 & Q1 & R1 & X1 & C) X. split; [auto|]. exists req1, out1, b1, Q1, R1. split; [auto|]. eapply IH; eauto.
Qed.
Lemma faithful_chained ins ex b Q R : faithful cq kq cr kr root slots ins ex b Q R ->
  chained false (@requester_new cq root) (@responder_new cr slots) ins b Q R.
Proof. induction 1 as [|ins ex Q R i req out b Q' R' F IH X]; [cbn; auto|]. eapply chained_snoc; eauto. Qed.
Lemma run_needs ins ex Q R : Forall ready ins -> faithful cq kq cr kr root slots ins ex true Q R ->
  (forall i, nth_error ins 5 = Some i -> in_fresh i = fresh /\ in_rnd i = rnd) ->
  length ins = rounds ownq ownr /\ need <= @TRANSCRIPT_SIZE cq /\ need <= @TRANSCRIPT_SIZE cr.
Proof.
  intros FA H N5. apply faithful_chained in H. rewrite need_eq. unfold rounds.
  destruct ins as [|i1 ins]; [destruct H as (H & _); discriminate|]. inversion FA as [|? ? F1 FA1]; subst.
  destruct H as (_ & req1 & out1 & b1 & Q1 & R1 & X1 & H). destruct (step_advance _ _ _ _ _ _ _ _ _ _ _ _ _ _ _ _ (run1 i1 F1) X1) as (_ & _ & -> & P1).
  destruct ins as [|i2 ins]; [destruct H as (H & _); discriminate|]. inversion FA1 as [|? ? F2 FA2]; subst.
  destruct H as (_ & req2 & out2 & b2 & Q2 & R2 & X2 & H). destruct (step_advance _ _ _ _ _ _ _ _ _ _ _ _ _ _ _ _ (run2 i2 Q1 R1 F2 P1) X2) as (_ & _ & -> & P2).
  destruct ins as [|i3 ins]; [destruct H as (H & _); discriminate|]. inversion FA2 as [|? ? F3 FA3]; subst.
  destruct H as (_ & req3 & out3 & b3 & Q3 & R3 & X3 & H). destruct (step_advance _ _ _ _ _ _ _ _ _ _ _ _ _ _ _ _ (run3 i3 Q2 R2 F3 P2) X3) as (A3 & B3 & -> & P3).
  destruct (both cert_bit ownq ownr) eqn:BC; cbn [negb] in H.
  2: { destruct ins as [|i4 ins]; [auto|]. destruct H as (H & _). discriminate. }
  destruct ins as [|i4 ins]; [destruct H as (H & _); discriminate|]. inversion FA3 as [|? ? F4 FA4]; subst.
  destruct H as (_ & req4 & out4 & b4 & Q4 & R4 & X4 & H). destruct (step_advance _ _ _ _ _ _ _ _ _ _ _ _ _ _ _ _ (run4 i4 Q3 R3 BC F4 P3) X4) as (_ & _ & -> & P4).
  destruct ins as [|i5 ins]; [destruct H as (H & _); discriminate|]. inversion FA4 as [|? ? F5 FA5]; subst.
  destruct H as (_ & req5 & out5 & b5 & Q5 & R5 & X5 & H). destruct (step_advance _ _ _ _ _ _ _ _ _ _ _ _ _ _ _ _ (run5 i5 Q4 R4 BC F5 P4) X5) as (A5 & B5 & -> & P5).
  destruct (both chal_bit ownq ownr) eqn:BH; cbn [negb] in H.
  2: { destruct ins as [|i6 ins]; [auto|]. destruct H as (H & _). discriminate. }
  destruct ins as [|i6 ins]; [destruct H as (H & _); discriminate|]. inversion FA5 as [|? ? F6 FA6]; subst.
  destruct H as (_ & req6 & out6 & b6 & Q6 & R6 & X6 & H). destruct (N5 i6 eq_refl) as [E1 E2]. destruct (run6 i6 Q5 R5 BC F6 E1 E2 P5) as (sig & S6).
  destruct (step_advance _ _ _ _ _ _ _ _ _ _ _ _ _ _ _ _ S6 X6) as (A6 & B6 & -> & P6).
  destruct ins as [|i7 ins]; [auto|]. destruct H as (H & _). discriminate.
Qed.
End PropAgree.

(** An honest requester and responder, each with its own build, connected by a
    transport that delivers messages unchanged, with buffers large enough:
    every call succeeds, the requester reports completion at exactly the
    exchange the announced capabilities require, the transcripts are equal, and
    both know the same versions, capabilities and algorithms. *)
Theorem C39_honest_run cq kq cr kr root slots ownq ownr f ins :
  honest cq kq cr kr root slots ownq ownr f ->
  Forall (input_ok (260 + length (chain_bytes (fs_chain f)))) ins -> length ins = rounds ownq ownr ->
  exists ex Q R, faithful cq kq cr kr root slots ins ex true Q R /\
    t_get (req_transcript Q) = t_get (rsp_transcript R) /\
    req_state Q = Some ReqNewSession /\
    rsp_state R = Some (if both cert_bit ownq ownr then RspChallenge (mkRspId 12 ownq 12 ownr agreed_algorithms)
                        else RspIdAuth (mkRspId 12 ownq 12 ownr agreed_algorithms)) /\
    @told_algorithms cq kq (mkVE 1 1 0 0) ownq 12 ownr agreed_algorithms (as_events (firstn 3 ex)) /\
    length (t_get (req_transcript Q)) = run_bytes cq slots ownq ownr f.
Proof.
  intros ([] & TQ & TR) FA LN. destruct (@mask_ok cr unit slots) as (mask & _ & MK).
  { rewrite honest_slots. destruct (@built_facts cr kr honest_built_r). lia. }
  assert (X : exists i, In i ins /\ forall j, nth_error ins 5 = Some j -> j = i).
  { destruct (nth_error ins 5) as [j|] eqn:E. { exists j. split; [now apply nth_error_In in E|congruence]. }
    destruct ins as [|i l]; [|exists i; split; [left; auto|discriminate]].
    unfold rounds in LN. destruct (both cert_bit ownq ownr), (both chal_bit ownq ownr); discriminate. }
  destruct X as (i & I & EQ). pose proof (proj1 (Forall_forall _ _) FA i I) as (F1 & F2 & _).
  apply (run_all cq kq cr kr root slots ownq ownr f) with (mask := mask) (fresh := in_fresh i) (rnd := in_rnd i); auto.
  intros j E. now rewrite (EQ j E).
Qed.
(** C72: exactly then.  A matched pair completes over a faithful transport, with
    buffers large enough, if and only if the bytes of the run fit both
    transcripts; and in no other number of exchanges. *)
Theorem C72_completes_iff cq kq cr kr root slots ownq ownr f ins :
  matched cq kq cr kr root slots ownq ownr f ->
  Forall (input_ok (260 + length (chain_bytes (fs_chain f)))) ins ->
  ((exists ex Q R, faithful cq kq cr kr root slots ins ex true Q R) <->
   length ins = rounds ownq ownr /\
   run_bytes cq slots ownq ownr f <= @TRANSCRIPT_SIZE cq /\ run_bytes cq slots ownq ownr f <= @TRANSCRIPT_SIZE cr).
Proof.
  intros HM FA. split.
  - intros (ex & Q & R & H). destruct HM. destruct (@mask_ok cr unit slots) as (mask & _ & MK).
    { rewrite honest_slots. destruct (@built_facts cr kr honest_built_r). lia. }
    assert (X : exists i, In i ins /\ forall j, nth_error ins 5 = Some j -> j = i).
    { destruct (nth_error ins 5) as [j|] eqn:E. { exists j. split; [now apply nth_error_In in E|congruence]. }
      destruct ins as [|i l]; [|exists i; split; [left; auto|discriminate]]. exfalso. inversion H as [|ins0 ? ? ? ? ? ? ? ? ? ? ? E0]; subst. destruct ins0; discriminate. }
    destruct X as (i & I & EQ). pose proof (proj1 (Forall_forall _ _) FA i I) as (F1 & F2 & _).
    apply (run_needs cq kq cr kr root slots ownq ownr f) with (mask := mask) (fresh := in_fresh i) (rnd := in_rnd i) (ex := ex) (Q := Q) (R := R); auto.
    intros j E. now rewrite (EQ j E).
  - intros (LN & TQ & TR). destruct (C39_honest_run cq kq cr kr root slots ownq ownr f ins (conj HM (conj TQ TR)) FA LN) as (ex & Q & R & H & _). eauto.
Qed.

(** The honest pair of the sample run. *)
#[local] Existing Instance sample_cfg.
#[local] Existing Instance sample_crypto.
Lemma be_val_nonzero b l : (0 < b)%N -> be_val (b :: l) <> 0%N.
Proof. intros H. cbn [be_val]. pose proof (N.pow_nonzero 256 (N.of_nat (length l)) ltac:(discriminate)). nia. Qed.
Lemma toy_signs r digest : exists signature,
  toy_signer r digest = Ok signature /\ length signature = 64 /\ bytes signature /\
  signature_verifies 0x10 (cc_leaf_cert (sample_chain 5)) digest signature.
Proof.
  exists (repeat (toy_key digest) 64). split; [reflexivity|]. split; [apply repeat_length|].
  unfold toy_key. pose proof (N.mod_lt (nth 0 digest 0%N) 100 ltac:(discriminate)) as L.
  remember (1 + nth 0 digest 0 mod 100)%N as k eqn:EK. assert (KK : (1 <= k < 101)%N) by lia. clear L.
  assert (IB : is_byte k) by (unfold is_byte; lia).
  split; [now apply bytes_repeat|].
  assert (NZ : be_val (repeat k 32) <> 0%N) by (apply (be_val_nonzero k (repeat k 31)); lia).
  assert (DU : der_uint ([2; 32]%N ++ repeat k 32) (be_val (repeat k 32))).
  { exists (repeat k 32). split; [reflexivity|]. split; [now apply bytes_repeat|]. split; [|reflexivity]. split; [lia|]. lia. }
  exists 32, ([0x30; 68]%N ++ ([2; 32]%N ++ repeat k 32) ++ ([2; 32]%N ++ repeat k 32)).
  split; [apply repeat_length|]. assert (F1 : firstn 32 (repeat k 64) = repeat k 32) by reflexivity. assert (F2 : skipn 32 (repeat k 64) = repeat k 32) by reflexivity. rewrite F1, F2.
  remember (be_val (repeat k 32)) as v eqn:EV.
  split; [exact NZ|]. split; [exact NZ|]. split; [|].
  - exists ([2; 32]%N ++ repeat k 32), ([2; 32]%N ++ repeat k 32). split; [exact DU|]. split; [exact DU|]. reflexivity.
  - cbn -[toy_key]. unfold toy_key. rewrite <- EK. apply N.eqb_refl.
Qed.
Definition sample_input (k : N) : step_input := mkIn (repeat k 32) big_buf (sample_rnd k) big_buf.
Definition sample_own_q : N := Eval vm_compute in match config_to_get_capabilities_msg with Ok m => gc_flags m | _ => 0%N end.
Definition sample_own_r : N := Eval vm_compute in match config_to_capabilities_msg with Ok m => cap_flags m | _ => 0%N end.
Example C39_example : honest sample_cfg sample_crypto sample_cfg sample_crypto [1; 2; 3]%N sample_slots sample_own_q sample_own_r (sample_slot 5) /\
  rounds sample_own_q sample_own_r = 6 /\
  Forall (input_ok (260 + length (chain_bytes (sample_chain 5)))) (map sample_input [1; 2; 3; 4; 5; 6]%N).
Proof.
  assert (HB : gen_config true true true sample_toml = Ok sample_cfg) by reflexivity.
  pose proof (@C44_accepted_config_never_fails sample_crypto _ _ _ _ _ HB) as (_ & _ & _ & (m & E1 & E2) & (m' & E3 & E4) & _).
  change (sc_capabilities sample_toml) with (@CAPABILITIES sample_cfg) in E2, E4.
  split; [split; [constructor|split; apply Nat.leb_le; reflexivity]|split; [reflexivity|]].
  - exact sample_built.
  - exact sample_built.
  - exact toy_contract.
  - exact toy_contract.
  - reflexivity.
  - reflexivity.
  - discriminate.
  - vm_compute in E1. injection E1 as <-. exact E2.
  - vm_compute in E3. injection E3 as <-. exact E4.
  - reflexivity.
  - apply Nat.leb_le. reflexivity.
  - apply Nat.leb_le. reflexivity.
  - reflexivity.
  - intros i ch H. 
    assert (FT : forall t, In t [5; 6]%N -> chain_fits (sample_chain t)).
    { intros t [<-|[<-|[]]]; (split; [apply Nat.leb_le; reflexivity|reflexivity]). }
    destruct i as [|[|[|[|[|i]]]]]; cbn in H; try discriminate; [injection H as <-; apply FT; simpl; auto|injection H as <-; apply FT; simpl; auto|].
    unfold slot_chain in H. destruct i; discriminate.
  - split; [apply bytes_check; reflexivity|]. split; [apply Nat.leb_le; reflexivity|]. split; [|intros r digest _ _; apply toy_signs].
    split; [reflexivity|]. split; [|repeat split]. split; [reflexivity|]. split; [|split].
    + constructor; [|constructor; [|constructor]].
      * exists [1; 5; 3]%N. split; reflexivity.
      * exists []. split; reflexivity.
    + exists [5; 9]%N. split; reflexivity.
    + apply Nat.leb_le. reflexivity.
  - assert (X : forall k, (k < 256)%N -> input_ok (260 + length (chain_bytes (sample_chain 5))) (sample_input k)).
    { intros k L. split; [split; [apply repeat_length|now apply bytes_repeat]|]. split; [split; [apply repeat_length|now apply bytes_repeat]|].
      split; apply Nat.leb_le; reflexivity. }
    repeat (constructor; [apply X; reflexivity|]). constructor.
Qed.
Print Assumptions C39_honest_run.
