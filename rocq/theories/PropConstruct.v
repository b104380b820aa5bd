(** C55: the message constructors. *)
From Verif Require Import Base BaseLemmas Config Encoding MsgCommon MsgChallenge MsgMeasurements Bufs SpecWire
     WriterLogic ReaderLogic ReaderLoops GramBasic GramCert GramOpaque GramChal GramMeas PropTools PropChal PropMeas
     PropTables Sample MsgVersion MsgAlgorithms PropVersionCaps PropAlg.

Section Props.
Context {cfg : Config}.

(** * GET_MEASUREMENTS *)
(** The call returns exactly for slots the device has, and otherwise panics; the
    value returned holds the arguments, and a nonce exactly when a signature is
    asked for. *)
Theorem C55_get_measurements_new {E} a i slot fresh :
  (N.to_nat slot < NUM_SLOTS ->
   exists m, @get_measurements_new cfg E a i slot fresh = Ok m /\
     gm_attributes m = a /\ gm_index m = i /\ gm_slot_id m = slot /\
     (ra_signature_requested a = true -> gm_nonce m = Some fresh) /\
     (ra_signature_requested a = false -> gm_nonce m = None)) /\
  (NUM_SLOTS <= N.to_nat slot -> @get_measurements_new cfg E a i slot fresh = Panic PAssert).
Proof.
  unfold get_measurements_new. split; intros H.
  - rewrite (proj2 (Nat.ltb_lt _ _)) by auto. simpl. eexists. split; [reflexivity|]. simpl.
    repeat split; intros ->; auto.
  - now rewrite (proj2 (Nat.ltb_ge _ _)) by auto.
Qed.
(** A constructed request with an index in its range is written by every large
    enough buffer, and read back with the same attributes and index, and with
    the nonce and the slot if it asks for a signature. *)
Theorem C55_get_measurements_sent {E} a i slot fresh m :
  @get_measurements_new cfg E a i slot fresh = Ok m -> index_ok i -> is_byte slot -> is_byte (index_code i) ->
  nonce_ok fresh -> bytes fresh ->
  writes_exactly (write_get_measurements m) (fun e => e = WGMBufferFull) ([0x12; 0xE0]%N ++ get_measurements_layout m) /\
  round_trips (write_get_measurements m) get_measurements_parse_body
    (mkGM a i (if ra_signature_requested a then Some fresh else None) (if ra_signature_requested a then slot else 0%N)).
Proof.
  intros H Hi Hs Hc Hn Hb.
  assert (L : N.to_nat slot < NUM_SLOTS).
  { destruct (Nat.lt_ge_cases (N.to_nat slot) NUM_SLOTS); auto.
    rewrite (proj2 (C55_get_measurements_new a i slot fresh)) in H by auto. discriminate. }
  destruct (proj1 (@C55_get_measurements_new E a i slot fresh) L) as (m' & E' & H1 & H2 & H3 & H4 & H5).
  rewrite H in E'. injection E' as <-.
  assert (HN : gm_has_nonce m) by (intros X; rewrite H1 in X; rewrite H4 by auto; discriminate).
  assert (HT : gm_typed m).
  { unfold gm_typed. rewrite H2, H3. repeat split; auto.
    - destruct (ra_signature_requested a); [rewrite H4 in H0 by auto; congruence|rewrite H5 in H0 by auto; discriminate].
    - destruct (ra_signature_requested a); [rewrite H4 in H0 by auto; congruence|rewrite H5 in H0 by auto; discriminate]. }
  split; [apply C18_get_measurements_write; [congruence|auto]|].
  replace (mkGM a i _ _) with (gm_visible m); [apply C18_get_measurements_round_trip; auto; congruence|].
  unfold gm_visible. rewrite H1, H2. destruct m as [ma mi mn ms]; simpl in *; subst.
  destruct (ra_signature_requested a); [rewrite H4 by auto|]; reflexivity.
Qed.

(** * MEASUREMENTS *)
Theorem C55_measurements_new {E} cc slot nonce od sig :
  (N.to_nat slot < NUM_SLOTS ->
   (forall total, exists m, @measurements_new_with_num cfg E total cc slot nonce od sig = Ok m /\
      m_total_blocks m = total /\ m_content_changed m = cc /\ m_slot_id m = slot /\ m_nonce m = nonce /\
      m_opaque_data m = od /\ m_signature m = sig /\ mbs_has (m_blocks m) []) /\
   (forall blocks, exists m, @measurements_new_with_measurements cfg E cc slot blocks nonce od sig = Ok m /\
      m_total_blocks m = 0%N /\ m_content_changed m = cc /\ m_slot_id m = slot /\ m_nonce m = nonce /\
      m_opaque_data m = od /\ m_signature m = sig /\ m_blocks m = blocks)) /\
  (NUM_SLOTS <= N.to_nat slot ->
   (forall total, @measurements_new_with_num cfg E total cc slot nonce od sig = Panic PAssert) /\
   (forall blocks, @measurements_new_with_measurements cfg E cc slot blocks nonce od sig = Panic PAssert)).
Proof.
  unfold measurements_new_with_num, measurements_new_with_measurements. split; intros H.
  - rewrite (proj2 (Nat.ltb_lt _ _)) by auto. simpl.
    split; intros x; eexists; (split; [reflexivity|]); simpl; repeat split; auto; try apply Nat.le_0_l; try (rewrite Nat.sub_0_r; reflexivity).
  - rewrite (proj2 (Nat.ltb_ge _ _)) by auto. auto.
Qed.

(** * CHALLENGE_AUTH *)
(** The call returns exactly when digests and signature fit their buffers; the
    value returned holds the arguments. *)
Theorem C55_challenge_auth_new {E} slot mask mutual cd nonce md od sig :
  (length cd <= MAX_DIGEST_SIZE /\ length md <= MAX_DIGEST_SIZE /\ length sig <= MAX_SIGNATURE_SIZE ->
   exists m, @challenge_auth_new cfg E slot mask mutual cd nonce md od sig = Ok m /\
     ca_slot m = slot /\ ca_slot_mask m = mask /\ ca_use_mutual_auth m = mutual /\ ca_cert_chain_hash m = cd /\
     ca_nonce m = nonce /\ ca_measurement_summary_hash m = md /\ ca_opaque_data m = od /\ ca_signature m = sig) /\
  (MAX_DIGEST_SIZE < length cd \/ MAX_DIGEST_SIZE < length md \/ MAX_SIGNATURE_SIZE < length sig ->
   @challenge_auth_new cfg E slot mask mutual cd nonce md od sig = Panic PUnwrap).
Proof.
  unfold challenge_auth_new, digest_size, signature_size. split.
  - intros (H1 & H2 & H3). rewrite !(proj2 (Nat.leb_le _ _)) by auto. simpl. eexists. split; [reflexivity|].
    repeat split.
  - intros H. destruct (Nat.leb_spec (length cd) MAX_DIGEST_SIZE); simpl; auto.
    destruct (Nat.leb_spec (length md) MAX_DIGEST_SIZE); simpl; auto.
    destruct (Nat.leb_spec (length sig) MAX_SIGNATURE_SIZE); simpl; auto. lia.
Qed.

(** * Default values *)
(** A default VERSION message lists versions 1.0 and 1.1, and a default
    ALGORITHMS message selects nothing: its 36 bytes are the header, the length
    field and zeros. *)
Theorem C55_default_values :
  writes_exactly (write_version version_default) (fun e => e = BufferFull)
                 [0x10; 4; 0; 0; 0; 2; 0; 0x10; 0; 0x11]%N /\
  writes_exactly (write_algorithms algorithms_default) (fun e => e = BufferFull)
                 ([0x11; 0x63; 0; 0; 36; 0] ++ repeat 0 30)%N.
Proof.
  split.
  - apply (C07_version_write version_default [mkVE 1 0 0 0; mkVE 1 1 0 0]).
    + split; [simpl; lia|]. split; reflexivity.
    + repeat constructor; simpl; lia.
  - exact (proj1 (C10_algorithms_write algorithms_default [] _ eq_refl eq_refl)).
Qed.

(** * Bit streams *)
(** The constructor keeps the data when it fits and panics otherwise; the
    reader gives what the abstract reader gives. *)
Theorem C55_bit_stream {E} data :
  (length data <= MAX_MEASUREMENT_SIZE -> exists b, @bs_new cfg E data = Ok b /\ sb_wf MAX_MEASUREMENT_SIZE b /\ sb_as_ref b = data) /\
  (MAX_MEASUREMENT_SIZE < length data -> @bs_new cfg E data = Panic PIndex).
Proof.
  unfold bs_new. split; intros H.
  - rewrite (proj2 (Nat.leb_le _ _)) by auto. eexists. split; [reflexivity|].
    unfold sb_wf, sb_as_ref; simpl. rewrite app_length, skipn_length, repeat_length. split; [lia|]. now apply firstn_app_exact.
  - now rewrite (proj2 (Nat.leb_gt _ _)) by auto.
Qed.
Theorem C55_bit_stream_read len r :
  match bs_read len r, bitstream_read len r with
  | (Ok b, r1), (Ok d, r2) => sb_wf MAX_MEASUREMENT_SIZE b /\ sb_as_ref b = d /\ r1 = r2
  | (Err e1, r1), (Err e2, r2) => e1 = e2 /\ r1 = r2
  | (Panic p1, _), (Panic p2, _) => p1 = p2
  | _, _ => False
  end.
Proof.
  unfold bs_read, bitstream_read. destruct (_ <? _) eqn:E1; [simpl; auto|].
  unfold bind, map_err. destruct (get_slice len MAX_MEASUREMENT_SIZE r) as [[d|e|p] r'] eqn:E; simpl; auto.
  assert (L : length d = len).
  { unfold get_slice in E. destruct (negb _); [discriminate|]. destruct (_ <? _); [discriminate|].
    destruct (_ <? _); [discriminate|]. unfold r_slice in E.
    destruct (r_byte r + len <=? length (r_buf r)) eqn:E2; [|discriminate]. injection E as <- _.
    unfold slice. rewrite firstn_length, skipn_length. apply Nat.leb_le in E2. lia. }
  unfold sb_wf, sb_as_ref; simpl. rewrite app_length, skipn_length, repeat_length. split; [lia|]. split; [|auto]. now apply firstn_app_exact.
Qed.
End Props.

(** The hypotheses are met by the default configuration; the slot bound is
    sharp. *)
#[local] Existing Instance sample_cfg.
Example C55_nonvacuous :
  (exists m, @get_measurements_new _ unit (mkRA true false) (ImplementationDefined 5) 4 (repeat 7%N 32) = Ok m) /\
  @get_measurements_new _ unit (mkRA true false) (ImplementationDefined 5) 5 (repeat 7%N 32) = Panic PAssert /\
  index_ok (ImplementationDefined 5) /\ nonce_ok (repeat 7%N 32) /\ bytes (repeat 7%N 32) /\
  (exists m, @challenge_auth_new _ unit 0 1 false (repeat 1%N 32) (repeat 7%N 32) (repeat 2%N 32) [] (repeat 3%N 64) = Ok m) /\
  @challenge_auth_new _ unit 0 1 false (repeat 1%N 32) (repeat 7%N 32) (repeat 2%N 32) [] (repeat 3%N 65) = Panic PUnwrap.
Proof.
  refine (conj _ (conj _ (conj _ (conj _ (conj _ (conj _ _)))))).
  - eexists. vm_compute. reflexivity.
  - reflexivity.
  - simpl. lia.
  - reflexivity.
  - apply bytes_check. reflexivity.
  - eexists. vm_compute. reflexivity.
  - reflexivity.
Qed.
Print Assumptions C55_get_measurements_sent.
Print Assumptions C55_measurements_new.
Print Assumptions C55_challenge_auth_new.
Print Assumptions C55_bit_stream_read.
