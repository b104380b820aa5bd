(** C20-C23, C46: properties of all message types at once. *)
From Verif Require Import Base BaseLemmas Config Encoding MsgCommon MsgVersion MsgCapabilities MsgAlgorithms MsgDigest
     MsgCertificates MsgChallenge MsgError MsgMeasurements SpecWire SpecMsgs WriterLogic WriterSafe ReaderLogic ReaderLoops
     GramBasic GramAlg GramDigest GramCert GramOpaque GramChal GramMeas PropTools Sample
     PropVersionCaps PropAlg PropCerts PropChal PropMeas.

Section Props.
Context {cfg : Config}.

(** * C20: headers *)
Lemma id_table k : id_of k = mkMsgId (version_of k) (code_of k).
Proof. destruct k; reflexivity. Qed.
(** On buffers longer than the header: the three outcomes, each exactly. *)
Theorem C20_parse_header k buf : 2 < length buf ->
  (parse_header (id_of k) buf = Ok true <->
     nth_error buf 1 = Some (code_of k) /\ nth_error buf 0 = Some (version_of k)) /\
  (parse_header (id_of k) buf = Err ParseHeaderErr <->
     nth_error buf 1 = Some (code_of k) /\ nth_error buf 0 <> Some (version_of k)) /\
  (parse_header (id_of k) buf = Ok false <-> nth_error buf 1 <> Some (code_of k)).
Proof.
  intros H. rewrite id_table. unfold parse_header. simpl SPDM_CODE. simpl SPDM_VERSION.
  destruct (Nat.ltb_spec 2 (length buf)); [|lia]. simpl negb.
  destruct buf as [|b0 [|b1 r]]; simpl in H; try lia. cbn [nth_error].
  destruct (N.eqb_spec b1 (code_of k)) as [->|Hc]; simpl negb; cbn iota.
  - destruct (N.eqb_spec b0 (version_of k)) as [->|Hv]; repeat split; try discriminate; try tauto; try congruence;
      intros; try (destruct H1; congruence).
  - repeat split; try discriminate; try congruence; try (intros [[= ->] _]; congruence).
Qed.
(** Shorter buffers violate the documented precondition: an assertion fails. *)
Theorem C20_short_panics k buf : length buf <= 2 -> parse_header (id_of k) buf = Panic PAssert.
Proof. intros H. unfold parse_header. destruct (Nat.ltb_spec 2 (length buf)); [lia|reflexivity]. Qed.

Lemma write_any_safe m buf r out : write_any m buf = (r, out) ->
  length out = length buf /\
  forall n, r = Ok n -> 2 < n /\ n <= length buf /\ skipn n out = skipn n buf /\
     firstn 2 out = [version_of (kind_of m); code_of (kind_of m)].
Proof.
  assert (K : forall E id (from : BufferFullError -> E) body f,
     (wsafe 1 body /\ woff body) -> id = id_of (kind_of m) ->
     classify f (write_msg id from body buf) = (r, out) ->
     length out = length buf /\
     forall n, r = Ok n -> 2 < n /\ n <= length buf /\ skipn n out = skipn n buf /\
       firstn 2 out = [version_of (kind_of m); code_of (kind_of m)]).
  { intros E id from body f Hb -> H. unfold classify in H.
    destruct (write_msg (id_of (kind_of m)) from body buf) as [r' o] eqn:E1. simpl in H. injection H as <- <-.
    destruct (write_msg_safe _ _ _ _ _ _ Hb E1) as [H1 H2]. split; [auto|]. intros n Hn.
    rewrite id_table in H2. simpl in H2. apply H2. destruct r'; simpl in Hn; try discriminate. now injection Hn as ->. }
  destruct m; unfold write_any; intros H; (eapply K; [|reflexivity|exact H]).
  - apply wb_get_version.
  - apply wb_version.
  - apply wb_get_capabilities.
  - apply wb_capabilities.
  - apply wb_negotiate.
  - apply wb_algorithms.
  - apply wb_get_digests.
  - apply wb_digests.
  - apply wb_get_certificate.
  - apply wb_certificate.
  - apply wb_challenge.
  - apply wb_challenge_auth.
  - apply wb_get_measurements.
  - apply wb_measurements.
  - apply wb_error.
Qed.
(** Whatever is written is recognised by its own type and no other, in the
    written part and in the whole buffer. *)
Theorem C20_written_recognised m buf n out k : write_any m buf = (Ok n, out) ->
  (k = kind_of m -> parse_header (id_of k) (firstn n out) = Ok true /\ parse_header (id_of k) out = Ok true) /\
  (k <> kind_of m -> parse_header (id_of k) (firstn n out) = Ok false /\ parse_header (id_of k) out = Ok false).
Proof.
  intros H. destruct (write_any_safe _ _ _ _ H) as (L & K). destruct (K n eq_refl) as (Hn & Hl & _ & Hh).
  destruct out as [|b0 [|b1 [|b2 r]]]; simpl in L, Hh; try discriminate; try lia.
  injection Hh as -> ->. destruct n as [|[|[|n]]]; try lia. cbn [firstn].
  assert (D : forall k', code_of k' = code_of (kind_of m) -> k' = kind_of m).
  { intros k'. destruct k', m; simpl; intros; try reflexivity; discriminate. }
  split; intros Hk.
  - subst k. split; apply C20_parse_header; simpl; auto; lia.
  - split; apply C20_parse_header; simpl; try lia; intros [= E]; apply Hk, D; auto.
Qed.

(** * C21: sizes and bounds *)
(** [m] is a well-formed message and [enc] its encoding. *)
Definition encodes (m : message) (enc : list N) : Prop :=
  match m with
  | MGetVersion => enc = [0x10; 0x84; 0; 0]%N
  | MVersion v => exists es, version_has v es /\ Forall version_entry_ok es /\
      enc = [0x10; 0x04]%N ++ version_body es ++ zeros (2 * (2 - length es))
  | MGetCapabilities m => enc = [0x11; 0xE1]%N ++ capabilities_layout (gc_ct_exponent m) (gc_flags m)
  | MCapabilities m => enc = [0x11; 0x61]%N ++ capabilities_layout (cap_ct_exponent m) (cap_flags m)
  | MNegotiate m => exists es unused, na_num_requests m = N.of_nat (length es) /\ na_requests m = es ++ unused /\
      enc = negotiate_enc m es
  | MAlgorithms m => exists es unused, al_num_responses m = N.of_nat (length es) /\ al_responses m = es ++ unused /\
      enc = algorithms_enc m es
  | MGetDigests => enc = [0x11; 0x81; 0; 0]%N
  | MDigests m => NUM_SLOTS <= 8 /\ is_byte (d_slot_mask m) /\ (exists size, digests_ok NUM_SLOTS size m) /\
      enc = [0x11; 0x01]%N ++ digests_layout NUM_SLOTS (d_slot_mask m) (slot_digest m)
  | MGetCertificate m =>
      enc = [0x11; 0x82]%N ++ get_certificate_layout (gcert_slot m) (gcert_offset m) (gcert_length m)
  | MCertificate m => exists portion, firstn (length portion) (cert_chain m) = portion /\
      cert_portion_length m = N.of_nat (length portion) /\
      enc = [0x11; 0x02]%N ++ certificate_layout (cert_slot m) portion (cert_remainder_length m)
  | MChallenge m => enc = [0x11; 0x83]%N ++ challenge_layout (ch_slot m) (ch_measurement_hash_type m) (ch_nonce m)
  | MChallengeAuth m => (exists ds ss, ca_valid ds ss m) /\
      enc = [0x11; 0x03]%N ++ challenge_auth_layout (if ca_use_mutual_auth m then 0 else ca_slot m) 0 false
              (ca_slot_mask m) (ca_cert_chain_hash m) (ca_nonce m) (ca_measurement_summary_hash m)
              (N.of_nat (length (opaque_bytes (ca_opaque_data m)))) (ca_opaque_data m) (ca_signature m)
  | MGetMeasurements m => index_ok (gm_index m) /\ gm_has_nonce m /\ enc = [0x12; 0xE0]%N ++ get_measurements_layout m
  | MMeasurements m => exists sr ss bl, meas_valid sr ss m bl /\ enc = [0x12; 0x60]%N ++ meas_wire m bl
  | MError m => enc = [0x12; 0x7F]%N ++ error_layout m
  end.
Lemma classify_writes {E} (wr : list N -> res E nat * list N) (F : E -> Prop) f enc :
  writes_exactly wr F enc -> (forall e, F e -> f e = true) ->
  writes_exactly (fun buf => classify f (wr buf)) (fun e => e = NoSpace) enc.
Proof.
  intros H HF buf. destruct (H buf) as [H1 H2]. unfold classify. split; intros L.
  - now rewrite (H1 L).
  - destruct (H2 L) as (e & k & K1 & K2 & ->). exists NoSpace, k. simpl. rewrite (HF e K1). auto.
Qed.
Theorem C21_write_exact m enc : encodes m enc -> writes_exactly (write_any m) (fun e => e = NoSpace) enc.
Proof.
  destruct m; simpl encodes; intros H;
   match goal with |- writes_exactly (write_any ?m) _ _ =>
      let t := eval cbv [write_any] in (write_any m) in change (write_any m) with t end.
  - subst. eapply classify_writes; [apply C07_get_version_write|auto].
  - destruct H as (es & H1 & H2 & ->). eapply classify_writes; [exact (C07_version_write m es H1 H2)|auto].
  - subst. eapply classify_writes; [apply C08_get_capabilities_write|auto].
  - subst. eapply classify_writes; [apply C08_capabilities_write|auto].
  - destruct H as (es & u & H1 & H2 & ->). eapply classify_writes; [exact (proj1 (C09_negotiate_write m es u H1 H2))|auto].
  - destruct H as (es & u & H1 & H2 & ->). eapply classify_writes; [exact (proj1 (C10_algorithms_write m es u H1 H2))|auto].
  - subst. eapply classify_writes; [apply C11_get_digests_write|auto].
  - destruct H as (H1 & H2 & (size & H3) & ->). eapply classify_writes; [exact (C11_digests_write m size H1 H2 H3)|auto].
  - subst. eapply classify_writes; [apply C12_get_certificate_write|auto].
  - destruct H as (p & H1 & H2 & ->). eapply classify_writes; [exact (C12_certificate_write m p H1 H2)|auto].
  - subst. eapply classify_writes; [apply C14_challenge_write|auto].
  - destruct H as ((ds & ss & H1) & ->). eapply classify_writes; [exact (C15_challenge_auth_write ds ss m H1)|].
    intros e [-> | ->]; reflexivity.
  - destruct H as (H1 & H2 & ->). eapply classify_writes; [exact (C18_get_measurements_write m H1 H2)|].
    intros e ->; reflexivity.
  - destruct H as (sr & ss & bl & H1 & ->). eapply classify_writes; [exact (C19_measurements_write sr ss m bl H1)|].
    intros e [-> | ->]; reflexivity.
  - subst. eapply classify_writes; [apply C16_error_write|auto].
Qed.
(** For every value, well formed or not: the buffer keeps its length and on
    success nothing after the returned length changed. *)
Theorem C21_write_in_bounds m buf r out : write_any m buf = (r, out) ->
  length out = length buf /\ forall n, r = Ok n -> 2 < n <= length buf /\ skipn n out = skipn n buf.
Proof.
  intros H. destruct (write_any_safe _ _ _ _ H) as [H1 H2]. split; [auto|]. intros n Hn.
  destruct (H2 n Hn) as (? & ? & ? & _). auto.
Qed.

(** * C22, C23: panics *)
Definition request_kind (k : kind) : Prop :=
  In k [KGetVersion; KGetCapabilities; KNegotiate; KGetDigests; KGetCertificate; KChallenge; KGetMeasurements].
Definition response_kind (k : kind) : Prop :=
  In k [KVersion; KCapabilities; KAlgorithms; KDigests; KCertificate; KChallengeAuth; KMeasurements; KError].
Lemma forget_panic {E A} (f : A -> message) (r : res E A) p : forget f r = Panic p <-> r = Panic p.
Proof. destruct r; simpl; split; intros [= ->]; auto. Qed.
Theorem C22_request_parsers_never_panic k ds ss sr : request_kind k -> never_panics (parse_any k ds ss sr).
Proof.
  intros H buf Hb p. unfold request_kind in H. simpl in H.
  decompose [or] H; try contradiction; subst k; unfold parse_any; rewrite forget_panic.
  - exact (nopanic_of _ _ rspec_get_version buf Hb p).
  - exact (nopanic_of _ _ rspec_get_capabilities buf Hb p).
  - exact (nopanic_of _ _ rspec_negotiate buf Hb p).
  - exact (nopanic_of _ _ rspec_get_digests buf Hb p).
  - exact (nopanic_of _ _ rspec_get_certificate buf Hb p).
  - exact (nopanic_of _ _ rspec_challenge buf Hb p).
  - exact (nopanic_of _ _ rspec_get_measurements buf Hb p).
Qed.
(** Six of the eight response parsers never panic (missing: CHALLENGE_AUTH,
    MEASUREMENTS and certificate chains, which do; exactly when, below). *)
Theorem C23_response_parsers_never_panic_partial k ds ss sr : NUM_SLOTS <= 8 ->
  response_kind k -> k <> KChallengeAuth -> k <> KMeasurements -> never_panics (parse_any k ds ss sr).
Proof.
  intros NS H H1 H2 buf Hb p. unfold response_kind in H. simpl in H.
  decompose [or] H; try contradiction; subst k; try congruence; unfold parse_any; rewrite forget_panic.
  - exact (nopanic_of _ _ rspec_version buf Hb p).
  - exact (nopanic_of _ _ rspec_capabilities buf Hb p).
  - exact (nopanic_of _ _ rspec_algorithms buf Hb p).
  - exact (nopanic_of _ _ (rspec_digests NS ds) buf Hb p).
  - exact (nopanic_of _ _ rspec_certificate buf Hb p).
  - exact (nopanic_of _ _ rspec_error buf Hb p).
Qed.
(** CHALLENGE_AUTH panics exactly on opaque data with more elements than
    MAX_OPAQUE_ELEMENTS or with an element longer than its storage. *)
Theorem C23_challenge_auth_panics_iff ds ss buf : bytes buf ->
  ((exists p, challenge_auth_parse_body buf ds ss = Panic p) <-> ca_overflow ds buf).
Proof. intros Hb. exact (run_panic _ _ _ (rspec_challenge_auth ds ss) buf Hb). Qed.
Theorem C23_measurements_panics_iff sr ss buf : bytes buf ->
  ((exists p, measurements_parse_body buf sr ss = Panic p) <-> meas_overflow buf).
Proof. intros Hb. exact (run_panic _ _ _ (rspec_measurements sr ss) buf Hb). Qed.
Theorem C23_chain_panics_iff ds buf : bytes buf ->
  ((exists p, chain_parse buf ds = Panic p) <-> chain_bad_tag ds buf).
Proof. intros Hb. exact (proj2 (chain_parse_spec ds buf Hb)). Qed.

(** * C46 *)
Lemma prefix_of {E A} (parse : list N -> res E A) fmt (f : A -> message) buf extra m :
  parses_exactly parse fmt -> bytes buf -> bytes extra ->
  forget f (parse buf) = Ok m -> forget f (parse (buf ++ extra)) = Ok m.
Proof.
  intros H Hb He. destruct (parse buf) as [a|e|p] eqn:E1; simpl; try discriminate. intros [= <-].
  apply H in E1 as (bs & rest & -> & Hf); auto.
  assert (E2 : parse ((bs ++ rest) ++ extra) = Ok a).
  { apply H; [now apply bytes_app|]. exists bs, (rest ++ extra). split; [now rewrite app_assoc|auto]. }
  now rewrite E2.
Qed.
Theorem C46_trailing_bytes_ignored k ds ss sr buf extra m : NUM_SLOTS <= 8 -> bytes buf -> bytes extra ->
  parse_any k ds ss sr buf = Ok m -> parse_any k ds ss sr (buf ++ extra) = Ok m.
Proof.
  intros NS Hb He. destruct k; unfold parse_any.
  - exact (prefix_of _ _ _ _ _ _ C07_get_version_parse Hb He).
  - exact (prefix_of _ _ _ _ _ _ C07_version_parse Hb He).
  - exact (prefix_of _ _ _ _ _ _ C08_get_capabilities_parse Hb He).
  - exact (prefix_of _ _ _ _ _ _ C08_capabilities_parse Hb He).
  - exact (prefix_of _ _ _ _ _ _ C09_negotiate_parse Hb He).
  - exact (prefix_of _ _ _ _ _ _ C10_algorithms_parse Hb He).
  - exact (prefix_of _ _ _ _ _ _ (parses_of _ _ _ rspec_get_digests) Hb He).
  - exact (prefix_of _ _ _ _ _ _ (C11_digests_parse ds NS) Hb He).
  - exact (prefix_of _ _ _ _ _ _ C12_get_certificate_parse Hb He).
  - exact (prefix_of _ _ _ _ _ _ C12_certificate_parse Hb He).
  - exact (prefix_of _ _ _ _ _ _ C14_challenge_parse Hb He).
  - exact (prefix_of _ _ _ _ _ _ (C15_challenge_auth_parse ds ss) Hb He).
  - exact (prefix_of _ _ _ _ _ _ C18_get_measurements_parse Hb He).
  - exact (prefix_of _ _ _ _ _ _ (C19_measurements_parse sr ss) Hb He).
  - exact (prefix_of _ _ _ _ _ _ C16_error_parse Hb He).
Qed.
(** ... and no shorter prefix of an accepted message's bytes makes it a
    different message: the value is determined by the bytes alone. *)
Theorem C46_value_determined k ds ss sr buf extra m m' : NUM_SLOTS <= 8 -> bytes buf -> bytes extra ->
  parse_any k ds ss sr buf = Ok m -> parse_any k ds ss sr (buf ++ extra) = Ok m' -> m = m'.
Proof.
  intros NS Hb He H1 H2. rewrite (C46_trailing_bytes_ignored k ds ss sr buf extra m NS Hb He H1) in H2. now injection H2.
Qed.
End Props.

#[local] Existing Instance sample_cfg.
Example C20_nonvacuous : parse_header (id_of KVersion) [0x10; 0x04; 0]%N = Ok true /\
  parse_header (id_of KVersion) [0x11; 0x04; 0]%N = Err ParseHeaderErr /\ parse_header (id_of KVersion) [0x11; 0x05; 0]%N = Ok false /\
  exists n out, write_any (MGetCertificate (mkGetCertificate 0 0 7)) (repeat 0%N 9) = (Ok n, out).
Proof. split; [reflexivity|]. split; [reflexivity|]. split; [reflexivity|]. eexists _, _. vm_compute. reflexivity. Qed.
Example C21_nonvacuous : exists enc, encodes (MChallengeAuth (sample_ca false)) enc /\ length enc = 78.
Proof.
  eexists. split; [split; [|reflexivity]|].
  - exists 4, 8. apply C15_nonvacuous.
  - vm_compute. reflexivity.
Qed.
(** A CHALLENGE_AUTH body and a chain that panic. *)
Example C23_challenge_auth_refuted :
  let buf := ([0; 1]%N ++ repeat 7%N 32 ++ sample_nonce ++ repeat 8%N 32 ++ [100; 0]%N ++
              [1; 0; 0; 0]%N ++ [0; 0; 17; 0]%N ++ repeat 1%N 17) in
  challenge_auth_parse_body buf 32 64 = Panic PIndex.
Proof. vm_compute. reflexivity. Qed.
Example C23_chain_refuted : chain_parse [9; 0; 0; 0; 1; 2; 3; 4; 0x31]%N 4 = Panic PAssert.
Proof. vm_compute. reflexivity. Qed.
Example C46_nonvacuous : exists m, parse_any KCapabilities 0 0 false (capabilities_layout 3 2 ++ [1; 2])%N = Ok m.
Proof. eexists. vm_compute. reflexivity. Qed.
Print Assumptions C20_written_recognised.
Print Assumptions C21_write_exact.
Print Assumptions C21_write_in_bounds.
Print Assumptions C22_request_parsers_never_panic.
Print Assumptions C23_response_parsers_never_panic_partial.
Print Assumptions C46_trailing_bytes_ignored.
