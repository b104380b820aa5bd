(** C56, C57, C58: encodings are unambiguous, and what was parsed can be
    re-encoded. *)
From Verif Require Import Base BaseLemmas Config Encoding MsgCommon MsgVersion MsgCapabilities MsgAlgorithms MsgDigest
     MsgCertificates MsgChallenge MsgError MsgMeasurements SpecWire SpecMsgs WriterLogic ReaderLogic ReaderLoops GramBasic GramAlg GramDigest
     GramCert GramOpaque GramChal GramMeas PropTools PropVersionCaps PropAlg PropCerts PropChal PropMeas PropGeneric Sample.

Section Props.
Context {cfg : Config}.

(** Values that fit their wire fields and hide nothing from the receiver, for
    digests of [ds] and signatures of [ss] bytes ([sr]: signed measurements). *)
Definition representable (ds ss : nat) (sr : bool) (m : message) : Prop :=
  match m with
  | MGetVersion | MGetDigests => True
  | MVersion v => exists es, version_has v es /\ Forall version_entry_ok es
  | MGetCapabilities m => is_byte (gc_ct_exponent m) /\ only_bits req_flag_bits (gc_flags m)
  | MCapabilities m => is_byte (cap_ct_exponent m) /\ only_bits rsp_flag_bits (cap_flags m)
  | MNegotiate m => exists es, na_num_requests m = N.of_nat (length es) /\ alg_array (na_requests m) es /\
      Forall alg_struct_ok es /\ only_bits meas_spec_bits (na_measurement_spec m) /\
      only_bits asym_bits (na_base_asym_algo m) /\ only_bits hash_bits (na_base_hash_algo m)
  | MAlgorithms m => exists es, al_num_responses m = N.of_nat (length es) /\ alg_array (al_responses m) es /\
      Forall alg_one_bit es /\ one_bit_of meas_spec_bits (al_measurement_spec m) /\
      one_bit_of hash_bits (al_measurement_hash m) /\ one_bit_of asym_bits (al_base_asym m) /\
      one_bit_of hash_bits (al_base_hash m)
  | MDigests m => is_byte (d_slot_mask m) /\ digests_ok NUM_SLOTS ds m /\
      forall i d, nth_error (d_digests m) i = Some (Some d) -> bytes d
  | MGetCertificate m => is_byte (gcert_slot m) /\ (gcert_offset m < 65536)%N /\ (gcert_length m < 65536)%N
  | MCertificate m => is_byte (cert_slot m) /\ exists portion, certificate_has m portion /\ bytes portion
  | MChallenge m => is_byte (ch_slot m) /\ nonce_ok (ch_nonce m) /\ bytes (ch_nonce m)
  | MChallengeAuth m => ca_valid ds ss m /\ ca_use_mutual_auth m = false
  | MGetMeasurements m => gm_ok m /\ gm_typed m
  | MMeasurements m => m_visible m = m /\ exists bl, meas_valid sr ss m bl /\
      (record_len bl <= N.of_nat MAX_MEASUREMENT_SIZE * N.of_nat MAX_MEASUREMENT_BLOCKS)%N
  | MError m => error_valid m
  end.

Lemma round_any {E F A} (full : E -> bool) (wr : list N -> res E nat * list N) (parse : list N -> res F A) (f : A -> message) a m :
  round_trips wr parse a -> f a = m ->
  round_trips (fun buf => classify full (wr buf)) (fun buf => forget f (parse buf)) m.
Proof.
  intros H <- buf n out Hb Hw. unfold classify in Hw. destruct (wr buf) as [[k|e|p] o] eqn:E1; simpl in Hw; try discriminate.
  injection Hw as <- <-. destruct (H buf k o Hb E1) as [H1 H2]. now rewrite H1, H2.
Qed.

(** * C56 *)
(** Every representable message survives the wire. *)
Theorem C56_round_trip_any ds ss sr m : NUM_SLOTS <= 8 -> representable ds ss sr m ->
  round_trips (write_any m) (parse_any (kind_of m) ds ss sr) m.
Proof.
  intros NS H. destruct m; simpl representable in H; simpl kind_of.
  - refine (round_any any_full _ _ (fun _ => MGetVersion) tt _ _ eq_refl).
    eapply round_trips_of; [apply C07_get_version_write|apply rspec_get_version| |reflexivity]. apply bytes_check. reflexivity.
  - destruct H as (es & H1 & H2). refine (round_any any_full _ _ MVersion _ _ (C07_version_round_trip _ es H1 H2) eq_refl).
  - refine (round_any any_full _ _ MGetCapabilities _ _ (C08_get_capabilities_round_trip _ (proj1 H) (proj2 H)) eq_refl).
  - refine (round_any any_full _ _ MCapabilities _ _ (C08_capabilities_round_trip _ (proj1 H) (proj2 H)) eq_refl).
  - destruct H as (es & H1 & H2 & H3 & H4 & H5 & H6).
    refine (round_any any_full _ _ MNegotiate _ _ (C09_negotiate_round_trip _ es H1 H2 H3 H4 H5 H6) eq_refl).
  - destruct H as (es & H1 & H2 & H3 & H4 & H5 & H6 & H7).
    refine (round_any any_full _ _ MAlgorithms _ _ (C10_algorithms_round_trip _ es H1 H2 H3 H4 H5 H6 H7) eq_refl).
  - refine (round_any any_full _ _ (fun _ => MGetDigests) tt _ _ eq_refl).
    eapply round_trips_of; [apply C11_get_digests_write|apply rspec_get_digests| |reflexivity]. apply bytes_check. reflexivity.
  - destruct H as (H1 & H2 & H3).
    refine (round_any any_full _ _ MDigests _ _ (C11_digests_round_trip _ ds NS H1 H2 H3) eq_refl).
  - destruct H as (H1 & H2 & H3).
    refine (round_any any_full _ _ MGetCertificate _ _ (C12_get_certificate_round_trip _ H1 H2 H3) eq_refl).
  - destruct H as (H1 & p & H2 & H3).
    refine (round_any any_full _ _ MCertificate _ _ (C12_certificate_round_trip _ p H1 H2 H3) eq_refl).
  - destruct H as (H1 & H2 & H3).
    refine (round_any any_full _ _ MChallenge _ _ (C14_challenge_round_trip _ H1 H2 H3) eq_refl).
  - destruct H as (H1 & H2).
    refine (round_any _ _ _ MChallengeAuth _ _ (C15_challenge_auth_round_trip_partial ds ss _ H1 H2) eq_refl).
  - destruct H as (H1 & H2).
    refine (round_any _ _ _ MGetMeasurements _ _ (C18_get_measurements_round_trip_exact _ H1 H2) eq_refl).
  - destruct H as (H1 & bl & H2 & H3).
    refine (round_any _ _ _ MMeasurements _ _ (C19_measurements_round_trip_partial sr ss _ bl H2 H3) _). now rewrite H1.
  - refine (round_any any_full _ _ MError _ _ (C16_error_round_trip _ H) eq_refl).
Qed.

Lemma error_is_bytes m : error_valid m -> bytes (error_layout m).
Proof.
  intros [H1 H2]. unfold error_layout, error_ext. bts.
  + destruct m; red; simpl; lia.
  + destruct m; simpl; try (red; lia); auto. destruct id; red; simpl; lia.
  + destruct m; bts; try apply H2; try (destruct H2 as (? & ? & ? & ?); assumption).
    * destruct (vd_vendor_id v); red; simpl; lia.
    * destruct (vd_vendor_id v); simpl; unfold vendor_id_bytes; bts.
    * rewrite H2. constructor.
Qed.
Lemma representable_encodes ds ss sr m : NUM_SLOTS <= 8 -> representable ds ss sr m -> exists enc, encodes m enc /\ bytes enc.
Proof.
  intros NS H. destruct m; cbn [representable encodes] in *.
  - eexists. split; [reflexivity|]. apply bytes_check. reflexivity.
  - destruct H as (es & H1 & H2). eexists. split; [eauto|]. destruct H1 as (L & _).
    unfold version_body. bts; try (red; lia). apply Forall_forall. intros. apply bytes_u16le.
  - eexists. split; [reflexivity|]. bts; try (red; lia). now apply caps_bytes.
  - eexists. split; [reflexivity|]. bts; try (red; lia). now apply caps_bytes.
  - destruct H as (es & H1 & (H2 & H3) & H4 & H5 & _). eexists. split; [eauto 6|].
    destruct (no_ext_ok es H4) as [O1 O2].
    unfold negotiate_enc, negotiate_layout. bts; try (red; simpl; lia); [now apply bits8|now apply alg_table_is_bytes].
  - destruct H as (es & H1 & (H2 & H3) & H4 & H5 & _). eexists. split; [eauto 6|].
    assert (H3' : Forall alg_struct_ok es).
    { eapply Forall_impl; [|exact H4]. intros a. apply one_only. }
    destruct (no_ext_ok es H3') as [O1 O2].
    unfold algorithms_enc, algorithms_layout.
    bts; try (red; simpl; lia); [apply bits8; now apply one_only|now apply alg_table_is_bytes].
  - eexists. split; [reflexivity|]. apply bytes_check. reflexivity.
  - destruct H as (H1 & H2 & H3). eexists. split; [eauto|]. unfold digests_layout. bts; try (red; lia).
    apply Forall_forall. intros i Hi. unfold slot_digest.
    destruct (nth_error (d_digests m) i) as [[d|]|] eqn:E; try constructor. eapply H3; eauto.
  - destruct H as (H1 & H2 & H3). eexists. split; [reflexivity|]. unfold get_certificate_layout. bts; red; lia.
  - destruct H as (H1 & p & (L1 & L2 & L3 & L4 & L5) & L6). eexists. split.
    + exists p. split; [|split; [exact L3|reflexivity]].
      rewrite L5, firstn_app, Nat.sub_diag, firstn_all, firstn_O. apply app_nil_r.
    + unfold certificate_layout. bts; red; lia.
  - destruct H as (H1 & H2 & H3). eexists. split; [reflexivity|]. unfold challenge_layout.
    bts; try (red; lia). destruct (ch_measurement_hash_type m); red; simpl; lia.
  - destruct H as (H1 & H2). eexists. split; [split; eauto|]. bts; try (red; lia).
    apply (ca_is_bytes _ ds ss); auto. rewrite H2. apply H1.
  - destruct H as ((H1 & H2) & T1 & T2 & T3 & T4). eexists. split.
    + split; [auto|]. split; [|reflexivity].
      intros E. rewrite E in H2. destruct H2 as (_ & n & En & _). rewrite En. discriminate.
    + unfold get_measurements_layout. bts; try (red; lia).
      * destruct (ra_signature_requested _), (ra_raw_bit_stream_requested _); red; simpl; lia.
      * destruct (ra_signature_requested _); bts. destruct H2 as (_ & n & En & _). rewrite En. now apply T4.
  - destruct H as (_ & bl & H2 & _). eexists. split; [exists sr, ss, bl; split; [exact H2|reflexivity]|].
    bts; try (red; lia). exact (meas_is_bytes _ _ _ _ H2).
  - eexists. split; [reflexivity|]. bts; try (red; lia). now apply error_is_bytes.
Qed.
Lemma encodes_unique m e1 e2 : encodes m e1 -> encodes m e2 -> e1 = e2.
Proof.
  intros H1 H2. apply C21_write_exact in H1. apply C21_write_exact in H2.
  set (buf := zeros (Nat.max (length e1) (length e2))).
  assert (L : length buf = Nat.max (length e1) (length e2)) by (unfold buf, zeros; apply repeat_length).
  destruct (H1 buf) as [A1 _]. destruct (H2 buf) as [A2 _].
  rewrite A1 in A2 by lia. specialize (A2 ltac:(lia)). injection A2 as E1 E2.
  apply (f_equal (firstn (length e1))) in E2. rewrite (firstn_app_exact e1) in E2 by reflexivity.
  rewrite E1 in E2. now rewrite (firstn_app_exact e2) in E2 by reflexivity.
Qed.

(** Two representable messages one of whose encodings starts with the other are
    the same message (and then the encodings are equal): no written message can
    be taken for another, nor for the beginning of another. The two may be
    written to different buffers; digest and signature sizes are those
    negotiated. *)
Theorem C56_unambiguous ds ss sr m1 m2 buf1 buf2 n1 n2 out1 out2 extra : NUM_SLOTS <= 8 ->
  representable ds ss sr m1 -> representable ds ss sr m2 -> bytes buf1 -> bytes buf2 ->
  write_any m1 buf1 = (Ok n1, out1) -> write_any m2 buf2 = (Ok n2, out2) ->
  firstn n1 out1 = firstn n2 out2 ++ extra -> m1 = m2 /\ n1 = n2 /\ extra = [].
Proof.
  intros NS H1 H2 B1 B2 W1 W2 EQ.
  destruct (representable_encodes _ _ _ _ NS H1) as (e1 & X1 & Y1).
  destruct (representable_encodes _ _ _ _ NS H2) as (e2 & X2 & Y2).
  pose proof (writes_inv _ _ _ _ _ _ (C21_write_exact _ _ X1) W1) as (L1 & G1 & O1).
  pose proof (writes_inv _ _ _ _ _ _ (C21_write_exact _ _ X2) W2) as (L2 & G2 & O2).
  pose proof (C56_round_trip_any ds ss sr m1 NS H1 buf1 n1 out1 B1 W1) as [R1 _].
  pose proof (C56_round_trip_any ds ss sr m2 NS H2 buf2 n2 out2 B2 W2) as [R2 _].
  destruct (write_any_safe _ _ _ _ W1) as (_ & K1). destruct (K1 n1 eq_refl) as (N1 & _ & _ & HD1).
  destruct (write_any_safe _ _ _ _ W2) as (_ & K2). destruct (K2 n2 eq_refl) as (N2 & _ & _ & HD2).
  assert (F1 : firstn n1 out1 = e1) by (subst n1 out1; apply firstn_app_exact; reflexivity).
  assert (F2 : firstn n2 out2 = e2) by (subst n2 out2; apply firstn_app_exact; reflexivity).
  assert (LL2 : 2 <= length e2) by lia.
  assert (P1 : firstn 2 e1 = firstn 2 out1) by (rewrite <- F1, firstn_firstn; f_equal; lia).
  assert (P2 : firstn 2 e2 = firstn 2 out2) by (rewrite <- F2, firstn_firstn; f_equal; lia).
  rewrite F1, F2 in *.
  assert (KK : kind_of m1 = kind_of m2).
  { rewrite EQ in P1. rewrite firstn_app in P1. replace (2 - length e2) with 0 in P1 by lia. simpl firstn at 2 in P1.
    rewrite app_nil_r, P2, HD2, HD1 in P1. injection P1 as _ E. clear -E.
    destruct m1, m2; simpl in E; try reflexivity; discriminate. }
  assert (BB : bytes (skipn 2 e2) /\ bytes extra).
  { split; [now apply bytes_skipn|]. rewrite EQ in Y1. now apply bytes_app in Y1. }
  rewrite KK in R1. rewrite EQ in R1. rewrite skipn_app in R1. replace (2 - length e2) with 0 in R1 by lia. simpl skipn at 2 in R1.
  assert (M : m1 = m2).
  { pose proof (C46_trailing_bytes_ignored _ ds ss sr _ extra m2 NS (proj1 BB) (proj2 BB) R2) as T. congruence. }
  subst m2. pose proof (encodes_unique _ _ _ X1 X2) as EE. split; [auto|]. split; [congruence|].
  rewrite EE in EQ. rewrite <- (app_nil_r e2) in EQ at 1. apply app_inv_head in EQ. auto.
Qed.

(** * C57 *)
(** [body] is accepted, and no part of it is trailing bytes that would have been ignored. *)
Definition accepted_whole (k : kind) (ds ss : nat) (sr : bool) (body : list N) (m : message) : Prop :=
  parse_any k ds ss sr body = Ok m /\ forall j m', j < length body -> parse_any k ds ss sr (firstn j body) <> Ok m'.
(** The kinds of message with a single encoding. *)
Definition canonical_kind (k : kind) : Prop :=
  In k [KGetVersion; KGetCapabilities; KCapabilities; KGetDigests; KDigests; KGetCertificate; KCertificate; KChallenge;
        KGetMeasurements].

Lemma whole_fmt {E A} (parse : list N -> res E A) fmt (f : A -> message) body m :
  parses_exactly parse fmt -> bytes body -> forget f (parse body) = Ok m ->
  (forall j m', j < length body -> forget f (parse (firstn j body)) <> Ok m') ->
  exists a, f a = m /\ fmt body a.
Proof.
  intros H Hb H1 H2. destruct (parse body) as [a|e|p] eqn:E1; simpl in H1; try discriminate. injection H1 as <-.
  exists a. split; [auto|]. apply H in E1 as (bs & rest & -> & Hf); auto.
  destruct rest as [|x rest]; [now rewrite app_nil_r|]. exfalso.
  apply (H2 (length bs) (f a)); [rewrite app_length; simpl; lia|].
  rewrite firstn_app_exact by reflexivity.
  assert (E2 : parse bs = Ok a) by (apply H; [now apply bytes_app in Hb|exists bs, []; now rewrite app_nil_r]).
  now rewrite E2.
Qed.
Lemma written_bytes m enc buf : encodes m enc -> length enc <= length buf ->
  write_any m buf = (Ok (length enc), enc ++ skipn (length enc) buf).
Proof. intros H. apply (C21_write_exact m enc H buf). Qed.

(** A message of these kinds that was accepted without trailing bytes, when
    written again, gives the bytes it was parsed from. *)
Theorem C57_canonical k ds ss sr body m buf : NUM_SLOTS <= 8 -> canonical_kind k -> bytes body ->
  accepted_whole k ds ss sr body m -> 2 + length body <= length buf ->
  write_any m buf = (Ok (2 + length body), [version_of k; code_of k] ++ body ++ skipn (2 + length body) buf).
Proof.
  intros NS HK HB (H1 & H2) L.
  assert (K : encodes m ([version_of k; code_of k] ++ body)).
  { unfold canonical_kind in HK. simpl in HK.
    decompose [or] HK; try contradiction; subst k; unfold parse_any in H1, H2;
      cbn [version_of code_of].
    - destruct (whole_fmt _ _ _ _ _ C07_get_version_parse HB H1 H2) as (a & <- & ->). reflexivity.
    - destruct (whole_fmt _ _ _ _ _ C08_get_capabilities_parse HB H1 H2) as (a & <- & _ & ->). reflexivity.
    - destruct (whole_fmt _ _ _ _ _ C08_capabilities_parse HB H1 H2) as (a & <- & _ & ->). reflexivity.
    - destruct (whole_fmt _ _ _ _ _ (parses_of _ _ _ rspec_get_digests) HB H1 H2) as (a & <- & ->). reflexivity.
    - destruct (whole_fmt _ _ _ _ _ (C11_digests_parse ds NS) HB H1 H2) as (a & <- & F & EB).
      cbn [encodes]. split; [auto|]. split; [|split; [eauto|now rewrite EB]].
      rewrite EB in HB. unfold digests_layout in HB. apply bytes_app in HB as [_ HB].
      apply bytes_app in HB as [HB _]. now inversion HB.
    - destruct (whole_fmt _ _ _ _ _ C12_get_certificate_parse HB H1 H2) as (a & <- & _ & _ & ->). reflexivity.
    - destruct (whole_fmt _ _ _ _ _ C12_certificate_parse HB H1 H2) as (a & <- & p & (L1 & L2 & L3 & L4 & L5) & ->).
      exists p. split; [|split; [exact L3|reflexivity]].
      rewrite L5, firstn_app, Nat.sub_diag, firstn_all, firstn_O. apply app_nil_r.
    - destruct (whole_fmt _ _ _ _ _ C14_challenge_parse HB H1 H2) as (a & <- & _ & ->). reflexivity.
    - destruct (whole_fmt _ _ _ _ _ C18_get_measurements_parse HB H1 H2) as (a & <- & (G1 & G2) & ->).
      split; [auto|]. split; [|reflexivity].
      intros E. rewrite E in G2. destruct G2 as (_ & n & En & _). rewrite En. discriminate. }
  rewrite (written_bytes _ _ buf K) by (rewrite app_length; simpl; lia).
  rewrite app_length, <- app_assoc. reflexivity.
Qed.

(** * C58 *)
Lemma forget_ok {E A} (f : A -> message) (r : res E A) m : forget f r = Ok m -> exists a, r = Ok a /\ f a = m.
Proof. destruct r; simpl; intros [= <-]; eauto. Qed.
Ltac split_bytes H := repeat match type of H with
  | bytes (?a ++ ?b) => let H' := fresh "B" in apply bytes_app in H as [H' H]; split_bytes H'
  | bytes [?a] => apply Forall_inv in H
  end.
Lemma concat_bytes_inv {A} (f : A -> list N) l : bytes (concat (map f l)) -> Forall (fun x => bytes (f x)) l.
Proof. induction l; simpl; intros H; constructor; apply bytes_app in H; [apply H|apply IHl, H]. Qed.
Lemma od_bytes_inv d : bytes (opaque_bytes d) -> Forall (fun e => bytes (oe_data e)) d.
Proof.
  intros H. unfold opaque_bytes in H. split_bytes H. apply concat_bytes_inv in H.
  eapply Forall_impl; [|exact H]. intros e He. unfold opaque_element_bytes, pad4 in He. now split_bytes He.
Qed.
Lemma error_bytes_valid m d : error_ok m -> (match m with VendorDef _ v => vd_opaque v = [] | _ => True end) ->
  (match error_data m with Some d' => d = d' | None => True end) ->
  bytes ([error_code m] ++ [d] ++ error_ext m) -> error_valid m.
Proof.
  intros H1 H2 H3 HB. split; [auto|]. destruct m; auto; simpl in H3.
  - subst d. inversion HB as [|? ? _ X]. now inversion X.
  - unfold error_ext in HB. split_bytes HB. auto.
  - unfold error_ext in HB. inversion HB as [|? ? _ X1]. inversion X1 as [|? ? _ X2]. inversion X2 as [|? ? Y1 X3].
    inversion X3 as [|? ? Y2 X4]. inversion X4 as [|? ? Y3 X5]. inversion X5 as [|? ? Y4 X6]. auto.
Qed.
Lemma table_ok t : Forall alg_entry_ok t -> Forall alg_struct_ok (map fst t).
Proof. induction 1 as [|x l [Hx _]]; simpl; constructor; auto. Qed.

(** Whatever was accepted, apart from CHALLENGE_AUTH and MEASUREMENTS, is
    representable. *)
Lemma parsed_representable k ds ss sr body m : 1 <= NUM_SLOTS <= 8 -> bytes body ->
  k <> KChallengeAuth -> k <> KMeasurements -> parse_any k ds ss sr body = Ok m ->
  kind_of m = k /\ representable ds ss sr m.
Proof.
  intros [N0 NS] HB K1 K2 H. destruct k; try congruence; unfold parse_any in H; apply forget_ok in H as (a & H & <-);
    (split; [reflexivity|]); cbn [representable]; auto.
  - apply C07_version_parse in H as (bs & r & -> & es & H1 & H2 & ->); eauto.
  - apply C08_get_capabilities_parse in H as (bs & r & -> & H1 & ->); auto. split; [|auto].
    unfold capabilities_layout in HB. split_bytes HB. auto.
  - apply C08_capabilities_parse in H as (bs & r & -> & H1 & ->); auto. split; [|auto].
    unfold capabilities_layout in HB. split_bytes HB. auto.
  - apply C09_negotiate_parse in H as (bs & r & -> & len & ea & eh & t & H1 & H2 & H3 & H4 & H5 & H6 & H7 & H8 & H9 & ->); auto.
    exists (map fst t). rewrite map_length. repeat split; auto; try apply H9. now apply table_ok.
  - apply C10_algorithms_parse in H as (bs & r & -> & len & t & H1 & H2 & H3 & H4 & H5 & H6 & H7 & H8 & H9 & ->); auto.
    exists (map fst t). rewrite map_length. repeat split; auto; try apply H9.
    clear -H3. induction H3; simpl; constructor; auto.
  - apply (C11_digests_parse ds NS) in H as (bs & r & -> & H1 & ->); auto.
    unfold digests_layout in HB. split_bytes HB. split; [auto|]. split; [auto|].
    intros i d Hi. destruct H1 as (HL & HD).
    assert (Li : i < NUM_SLOTS) by (rewrite <- HL; apply nth_error_Some; congruence).
    destruct (HD i Li) as [D1 D2]. destruct (slot_in_mask (d_slot_mask a) i) eqn:EM; [|rewrite D2 in Hi by auto; discriminate].
    match goal with X : bytes (concat _) |- _ => apply concat_bytes_inv in X; rewrite Forall_forall in X; specialize (X i) end.
    assert (X : bytes (slot_digest a i)).
    { match goal with X : In i _ -> _ |- _ => apply X end. apply filter_In. split; [apply in_seq; lia|auto]. }
    unfold slot_digest in X. now rewrite Hi in X.
  - apply C12_get_certificate_parse in H as (bs & r & -> & H1 & H2 & ->); auto.
    unfold get_certificate_layout in HB. split_bytes HB. auto.
  - apply C12_certificate_parse in H as (bs & r & -> & p & H1 & ->); auto.
    unfold certificate_layout in HB. split_bytes HB. eauto.
  - apply C14_challenge_parse in H as (bs & r & -> & H1 & ->); auto.
    unfold challenge_layout in HB. split_bytes HB. auto.
  - apply C18_get_measurements_parse in H as (bs & r & -> & H1 & ->); auto. split; [auto|].
    unfold get_measurements_layout in HB. split_bytes HB. destruct H1 as (_ & H1). unfold gm_typed.
    destruct (ra_signature_requested (gm_attributes a)).
    + destruct H1 as (G1 & n & G2 & G3). rewrite G2 in *. match goal with X : bytes (n ++ _) |- _ => split_bytes X end. split; [auto|].
      repeat split; auto; match goal with X : Some n = Some _ |- _ => injection X as <-; auto end.
    + destruct H1 as (G1 & G2). rewrite G1, G2. split; [auto|]. split; [|split; [red; lia|discriminate]].
      simpl; lia.
  - apply C16_error_parse in H as (bs & r & -> & H1 & H2 & d & H3 & ->); auto.
    apply bytes_app in HB as [HB _]. exact (error_bytes_valid a d H1 H2 H3 HB).
Qed.

Lemma ca_write_valid m buf n out : od_ok (ca_opaque_data m) -> write_any (MChallengeAuth m) buf = (Ok n, out) ->
  N.to_nat (ca_slot m) < NUM_SLOTS /\ length (opaque_bytes (ca_opaque_data m)) <= 1024.
Proof.
  intros HO H. cbn [write_any] in H. unfold classify, write_msg, challenge_auth_write_body in H.
  unfold bind at 1 in H. destruct (map_err wca_from (write_header ChallengeAuth_id) (writer_new buf)) as [[u|e|p] w];
    try discriminate. unfold bind at 1, lift, challenge_auth_validate in H. rewrite od_size_eq in H by now apply od_ok_matches.
  destruct (Nat.leb_spec NUM_SLOTS (N.to_nat (ca_slot m))); [discriminate|].
  unfold MAX_OPAQUE_DATA_SIZE in H. destruct (Nat.ltb_spec 1024 (length (opaque_bytes (ca_opaque_data m)))); [discriminate|].
  auto.
Qed.

(** What was accepted, when written again, is accepted with the same value.
    The exceptions: CHALLENGE_AUTH with the mutual authentication bit, unsigned
    MEASUREMENTS with a slot number, and MEASUREMENTS with more than 1024 bytes
    of opaque data, which the parser accepts when the length field says
    otherwise.  PropReencode.v proves that the exceptions are exactly these. *)
Theorem C58_reencoded k ds ss sr body m buf n out : 1 <= NUM_SLOTS <= 8 -> bytes body -> bytes buf ->
  parse_any k ds ss sr body = Ok m ->
  (forall a, m = MChallengeAuth a -> ca_use_mutual_auth a = false) ->
  (forall a, m = MMeasurements a ->
     (m_signature a = None -> m_slot_id a = 0%N) /\ length (opaque_bytes (m_opaque_data a)) <= 1024) ->
  write_any m buf = (Ok n, out) ->
  parse_any k ds ss sr (skipn 2 (firstn n out)) = Ok m /\ parse_any k ds ss sr (skipn 2 out) = Ok m.
Proof.
  intros NS HB Hbuf HP HC HM HW.
  assert (D : k = KChallengeAuth \/ k = KMeasurements \/ (k <> KChallengeAuth /\ k <> KMeasurements)).
  { destruct k; auto; right; right; split; discriminate. }
  destruct D as [-> | [-> | [K1 K2]]].
  - unfold parse_any in HP. apply forget_ok in HP as (a & HP & <-).
    apply C15_challenge_auth_parse in HP as (bs & r & -> & rsvd & olen & R1 & R2 & R3 & ->); auto.
    pose proof R3 as (_ & _ & _ & _ & _ & R4 & _).
    destruct (ca_write_valid a buf n out R4 HW) as [W1 W2].
    assert (V : representable ds ss sr (MChallengeAuth a)).
    { split; [|now apply HC]. unfold ca_bytes, challenge_auth_layout in HB. split_bytes HB.
      split; [auto|]. repeat split; auto. now apply od_bytes_inv. }
    exact (C56_round_trip_any ds ss sr _ (proj2 NS) V buf n out Hbuf HW).
  - unfold parse_any in HP. apply forget_ok in HP as (a & HP & <-).
    apply C19_measurements_parse in HP as (bs & r & -> & rsvd & olen & bl & R1 & R2 & R3 & ->); auto.
    destruct (HM a eq_refl) as [M1 M2].
    pose proof R3 as (G1 & G2 & G3 & G4 & G5 & G6 & G7 & G8 & G9).
    assert (G10 : Forall (fun b => (N.of_nat (length (dmtf_bytes (mb_measurement b))) < 65536)%N) bl).
    { eapply Forall_impl; [|exact G6]. intros b (_ & _ & ?). auto. }
    pose proof (emits_measurements a bl 2 G4 (proj1 G5) G10 G2 (od_ok_matches _ G8) ltac:(lia)) as W.
    cbv zeta in W. apply (writes_ofS Measurements_id wm_from _ meas_error _ (or_introl eq_refl)) in W.
    change (fun buf => classify _ (write_msg Measurements_id wm_from (measurements_write_body a) buf)) with (write_any (MMeasurements a)) in *.
    assert (ES : match m_signature a with Some _ => m_slot_id a | None => 0%N end = m_slot_id a).
    { destruct (m_signature a); auto. symmetry. auto. }
    rewrite ES in W.
    assert (BB : bytes (measurements_layout (m_total_blocks a) (m_slot_id a) (m_content_changed a) 0 bl (m_nonce a)
                   (N.of_nat (length (opaque_bytes (m_opaque_data a)))) (m_opaque_data a) (sig_bytes (m_signature a)))).
    { unfold meas_bytes, measurements_layout in HB. split_bytes HB. unfold measurements_layout. bts.
      destruct (m_content_changed a); red; simpl content_changed_code; lia. }
    refine (round_any _ _ _ MMeasurements _ _ (round_trips_of _ _ _ _ _ _ _ _ a W (rspec_measurements sr ss) BB _) eq_refl buf n out Hbuf HW).
    exists 0%N, (N.of_nat (length (opaque_bytes (m_opaque_data a)))), bl. split; [lia|]. split; [lia|]. split; [exact R3|reflexivity].
  - destruct (parsed_representable _ _ _ _ _ _ NS HB K1 K2 HP) as (<- & V).
    exact (C56_round_trip_any ds ss sr _ (proj2 NS) V buf n out Hbuf HW).
Qed.
(** ... and, apart from those two kinds, every accepted message can be written
    again, in any buffer of some fixed size. *)
Theorem C58_writable k ds ss sr body m : 1 <= NUM_SLOTS <= 8 -> bytes body ->
  k <> KChallengeAuth -> k <> KMeasurements -> parse_any k ds ss sr body = Ok m ->
  exists L, forall buf, (L <= length buf -> exists out, write_any m buf = (Ok L, out)) /\
                        (length buf < L -> exists out, write_any m buf = (Err NoSpace, out)).
Proof.
  intros NS HB K1 K2 HP. destruct (parsed_representable _ _ _ _ _ _ NS HB K1 K2 HP) as (_ & V).
  destruct (representable_encodes _ _ _ _ (proj2 NS) V) as (enc & X & _). exists (length enc). intros buf.
  destruct (C21_write_exact _ _ X buf) as [W1 W2]. split; intros L.
  - rewrite W1 by auto. eauto.
  - destruct (W2 L) as (e & k' & -> & _ & ->). eauto.
Qed.
End Props.

#[local] Existing Instance sample_cfg.
(** Hypotheses met: messages of several kinds. *)
Example C56_nonvacuous : NUM_SLOTS <= 8 /\ representable 4 8 true (MChallengeAuth (sample_ca false)) /\
  representable 4 8 true (MGetMeasurements sample_gm) /\
  representable 4 8 true (MMeasurements (sample_meas [sample_block; sample_block] 8)).
Proof.
  refine (conj _ (conj _ (conj _ _))).
  - apply Nat.leb_le. reflexivity.
  - exact (conj (C15_nonvacuous false) eq_refl).
  - pose proof C18_nonvacuous as (H1 & H2 & _). exact (conj H1 H2).
  - split; [reflexivity|]. exists [sample_block; sample_block]. exact C19_nonvacuous.
Qed.

Definition whole_check (k : kind) (ds ss : nat) (sr : bool) (body : list N) : bool :=
  forallb (fun j => match parse_any k ds ss sr (firstn j body) with Ok _ => false | _ => true end) (seq 0 (length body)).
Lemma whole_of_check k ds ss sr body m : parse_any k ds ss sr body = Ok m -> whole_check k ds ss sr body = true ->
  accepted_whole k ds ss sr body m.
Proof.
  intros H1 H2. split; [auto|]. intros j m' Hj E. unfold whole_check in H2. rewrite forallb_forall in H2.
  specialize (H2 j). rewrite E in H2. discriminate H2. apply in_seq. lia.
Qed.
Example C57_nonvacuous :
  accepted_whole KGetMeasurements 4 8 true (get_measurements_layout sample_gm) (MGetMeasurements sample_gm) /\
  accepted_whole KGetCertificate 4 8 true [2; 0; 1; 0; 7; 0]%N (MGetCertificate (mkGetCertificate 2 1 7)).
Proof. split; apply whole_of_check; vm_compute; reflexivity. Qed.

(** The other kinds do have several encodings of one value, so the list in C57
    is complete: for each of them some accepted whole body is not what writing
    the parsed value gives. *)
Definition rewritten (m : message) (len : nat) : res write_failure nat * list N := write_any m (zeros (2 + len)).
Theorem C57_other_kinds : forall k, ~ canonical_kind k -> exists ds ss sr body m, bytes body /\
  accepted_whole k ds ss sr body m /\
  rewritten m (length body) <> (Ok (2 + length body), [version_of k; code_of k] ++ body).
Proof.
  assert (K : forall k ds ss sr body, bytes body -> whole_check k ds ss sr body = true ->
     match parse_any k ds ss sr body with
     | Ok m => match rewritten m (length body) with
               | (Ok _, out) => if list_eqb out ([version_of k; code_of k] ++ body) then false else true
               | _ => true
               end
     | _ => false end = true ->
     exists ds ss sr body m, bytes body /\ accepted_whole k ds ss sr body m /\
        rewritten m (length body) <> (Ok (2 + length body), [version_of k; code_of k] ++ body)).
  { intros k ds ss sr body HB HW H. exists ds, ss, sr, body. destruct (parse_any k ds ss sr body) as [m|e|p] eqn:E; try discriminate.
    exists m. split; [auto|]. split; [now apply whole_of_check|]. intros X. rewrite X in H.
    rewrite (proj2 (list_eqb_eq _ _) eq_refl) in H. discriminate. }
  intros k HK. destruct k; try (exfalso; apply HK; unfold canonical_kind; simpl; tauto).
  - (* VERSION with one entry *)
    apply (K _ 4 8 true [0; 0; 0; 1; 0; 0x11]%N); [apply bytes_check| |]; vm_compute; reflexivity.
  - (* NEGOTIATE_ALGORITHMS with an extended algorithm *)
    apply (K _ 4 8 true (negotiate_layout 0 36 1 1 1 [1; 2; 3; 4]%N [] [])); [apply bytes_check| |]; vm_compute; reflexivity.
  - (* ALGORITHMS with another Length *)
    apply (K _ 4 8 true (algorithms_layout 0 77 1 1 1 1 [])); [apply bytes_check| |]; vm_compute; reflexivity.
  - (* CHALLENGE_AUTH with reserved bits set *)
    apply (K _ 4 8 true (ca_bytes 5 24 (sample_ca false))); [apply bytes_check| |]; vm_compute; reflexivity.
  - (* MEASUREMENTS with another opaque length *)
    apply (K _ 4 8 true (meas_bytes 0 3 [sample_block] (sample_meas [sample_block] 8))); [apply bytes_check| |]; vm_compute; reflexivity.
  - (* ERROR with unused error data *)
    apply (K _ 4 8 true [3; 9]%N); [apply bytes_check| |]; vm_compute; reflexivity.
Qed.
(** The two exclusions of C58 are necessary. *)
Theorem C58_mutual_auth_refuted : exists body m buf n out, bytes body /\ parse_any KChallengeAuth 4 8 true body = Ok m /\
  write_any m buf = (Ok n, out) /\ parse_any KChallengeAuth 4 8 true (skipn 2 (firstn n out)) <> Ok m.
Proof.
  exists (ca_bytes 0 24 (sample_ca true)), (MChallengeAuth (sample_ca true)), (zeros 100).
  do 2 eexists. split; [apply bytes_check; vm_compute; reflexivity|]. split; [vm_compute; reflexivity|].
  split; [vm_compute; reflexivity|]. vm_compute. discriminate.
Qed.
Theorem C58_unsigned_slot_refuted : exists body m buf n out, bytes body /\ parse_any KMeasurements 4 8 false body = Ok m /\
  write_any m buf = (Ok n, out) /\ parse_any KMeasurements 4 8 false (skipn 2 (firstn n out)) <> Ok m.
Proof.
  set (a := mkMeasurements 0 CCTrue 2 (mkMBs 0 (repeat None 8)) sample_nonce sample_opaque None).
  exists (meas_bytes 0 24 [] a), (MMeasurements a), (zeros 100).
  do 2 eexists. split; [apply bytes_check; vm_compute; reflexivity|]. split; [vm_compute; reflexivity|].
  split; [vm_compute; reflexivity|]. vm_compute. discriminate.
Qed.
Print Assumptions C56_unambiguous.
Print Assumptions C57_canonical.
Print Assumptions C57_other_kinds.
Print Assumptions C58_reencoded.
