(** C18, C19: GET_MEASUREMENTS and MEASUREMENTS. *)
From Verif Require Import Base BaseLemmas Config Encoding MsgCommon MsgChallenge MsgMeasurements SpecWire
     WriterLogic ReaderLogic ReaderLoops GramBasic GramCert GramOpaque GramChal GramMeas PropTools PropChal Sample.

Section Props.
Context {cfg : Config}.

Definition write_get_measurements (m : GetMeasurements) :=
  write_msg GetMeasurements_id wgm_from (get_measurements_write_body m).
Definition write_measurements (m : Measurements) := write_msg Measurements_id wm_from (measurements_write_body m).

(** * C18 *)
(** A nonce is present when a signature is requested (GetMeasurements::new
    guarantees it). *)
Definition gm_has_nonce (m : GetMeasurements) : Prop :=
  ra_signature_requested (gm_attributes m) = true -> gm_nonce m <> None.
Theorem C18_get_measurements_write m : index_ok (gm_index m) -> gm_has_nonce m ->
  writes_exactly (write_get_measurements m) (fun e => e = WGMBufferFull)
    ([0x12; 0xE0]%N ++ get_measurements_layout m).
Proof. intros H1 H2. exact (writes_of GetMeasurements_id wgm_from _ _ (emits_get_measurements m 2 H1 H2)). Qed.
Theorem C18_get_measurements_parse :
  parses_exactly get_measurements_parse_body (fun bs m => gm_ok m /\ bs = get_measurements_layout m).
Proof. exact (parses_of _ _ _ rspec_get_measurements). Qed.

(** What a receiver can see of [m]: without a signature, no nonce and slot 0. *)
Definition gm_visible (m : GetMeasurements) : GetMeasurements :=
  if ra_signature_requested (gm_attributes m) then m else mkGM (gm_attributes m) (gm_index m) None 0.
(** Slot, nonce and index have their machine types. *)
Definition gm_typed (m : GetMeasurements) : Prop :=
  is_byte (index_code (gm_index m)) /\ N.to_nat (gm_slot_id m) < NUM_SLOTS /\ is_byte (gm_slot_id m) /\
  forall n, gm_nonce m = Some n -> nonce_ok n /\ bytes n.

Theorem C18_get_measurements_round_trip m : index_ok (gm_index m) -> gm_has_nonce m -> gm_typed m ->
  round_trips (write_get_measurements m) get_measurements_parse_body (gm_visible m).
Proof.
  intros H1 H2 (T1 & T2 & T2' & T3).
  refine (round_trips_of _ _ _ _ _ _ _ _ _ (C18_get_measurements_write m H1 H2) rspec_get_measurements _ _).
  - unfold get_measurements_layout. bts.
    + destruct (ra_signature_requested _), (ra_raw_bit_stream_requested _); red; simpl; lia.
    + unfold gm_has_nonce in H2. destruct (ra_signature_requested _); bts.
      destruct (gm_nonce m) as [n|]; [now apply T3|constructor].
  - unfold gm_ok, gm_visible, get_measurements_layout, gm_has_nonce in *.
    destruct (ra_signature_requested (gm_attributes m)) eqn:E; rewrite ?E; simpl; rewrite ?E.
    + split; [|reflexivity]. split; [auto|]. split; [auto|]. destruct (gm_nonce m) as [n|] eqn:En.
      * exists n. split; auto. now apply T3.
      * exfalso. now apply H2.
    + auto.
Qed.
(** When no part of the value is hidden it comes back unchanged. *)
Corollary C18_get_measurements_round_trip_exact m : gm_ok m -> gm_typed m ->
  round_trips (write_get_measurements m) get_measurements_parse_body m.
Proof.
  intros [H1 H2] T.
  assert (Hn : gm_has_nonce m).
  { intros E. rewrite E in H2. destruct H2 as (_ & n & En & _). rewrite En. discriminate. }
  assert (Hv : gm_visible m = m).
  { unfold gm_visible. destruct (ra_signature_requested _); auto. destruct H2 as [E1 E2].
    destruct m; simpl in *; congruence. }
  rewrite <- Hv at 2. now apply C18_get_measurements_round_trip.
Qed.
(** Indexes outside their range are refused, whatever the buffer. *)
Theorem C18_bad_index_refused m buf : ~ index_ok (gm_index m) ->
  exists e, fst (write_get_measurements m buf) = Err e /\ (3 <= length buf -> exists i, e = WGMMeasurementIndex i).
Proof.
  intros H. destruct (mi_write_bad _ H) as (ie & Ei).
  assert (Hp : emits 0 (map_err wgm_from (write_header GetMeasurements_id) ;;; map_err wgm_from (put (ra_to_u8 (gm_attributes m))))
              WGMBufferFull ([0x12; 0xE0]%N ++ [ra_to_u8 (gm_attributes m)]) 3).
  { eapply emits_bind; [eapply emits_map_err; [apply emits_header|reflexivity]|eapply emits_map_err; [apply emits_put|reflexivity]]. }
  destruct (Hp (writer_new buf)) as [P1 P2]; [unfold w_wf; simpl; lia|reflexivity|].
  simpl w_buf in P1, P2. simpl app in P1, P2. simpl length in P1, P2.
  unfold write_get_measurements, write_msg, get_measurements_write_body. unfold bind in P1, P2 |- *.
  destruct (Nat.le_gt_cases 3 (length buf)) as [L|L].
  - specialize (P1 L). destruct (map_err wgm_from (write_header _) (writer_new buf)) as [[x|x|x] w1]; try discriminate.
    rewrite P1. unfold map_err at 1, lift. rewrite Ei. simpl. eauto.
  - destruct (P2 L) as (k & _ & _ & P3).
    destruct (map_err wgm_from (write_header _) (writer_new buf)) as [[x|x|x] w1]; try discriminate.
    + rewrite P3. simpl. eexists. split; [reflexivity|lia].
    + simpl. eexists. split; [reflexivity|lia].
Qed.
(** Reserved attribute bits and slots out of range are refused on parse. *)
Theorem C18_parse_refuses a i rest : bytes (a :: i :: rest) ->
  (4 <= a)%N \/
  (exists nonce slot rest', (a = 1 \/ a = 3)%N /\ nonce_ok nonce /\ rest = nonce ++ slot :: rest' /\ NUM_SLOTS <= N.to_nat slot) ->
  exists e, get_measurements_parse_body (a :: i :: rest) = Err e.
Proof.
  intros Hb H. destruct (get_measurements_parse_body (a :: i :: rest)) as [m|e|p] eqn:E; eauto; exfalso.
  - apply C18_get_measurements_parse in E; auto. destruct E as (bs & r & E & (Hi & Ho) & ->).
    unfold get_measurements_layout in E. simpl in E. injection E as E1 E2 E3.
    destruct H as [H|(nonce & slot & rest' & Ha & Hn & Er & Hs)].
    + destruct (ra_signature_requested _), (ra_raw_bit_stream_requested _); simpl in E1; lia.
    + assert (ra_signature_requested (gm_attributes m) = true) as Hr.
      { destruct (ra_signature_requested _), (ra_raw_bit_stream_requested _); simpl in E1; auto; lia. }
      rewrite Hr in Ho, E3. destruct Ho as (Hs' & n & En & Hno). rewrite En in E3. subst rest.
      rewrite <- app_assoc in E3. apply split_eq in E3 as [-> E4]; [|unfold nonce_ok in *; congruence].
      simpl in E4. injection E4 as -> _. lia.
  - exact (nopanic_of _ _ rspec_get_measurements _ Hb p E).
Qed.

(** * C19 *)
Definition meas_error (e : WriteMeasurementsError) : Prop := e = WMBufferFull \/ e = WMWriteOpaqueElement WOEBufferFull.
(** A message whose fields are within their limits: at most
    MAX_MEASUREMENT_BLOCKS blocks, each with a value of its own kind within its
    size limit. *)
Definition meas_valid (sr : bool) (ss : nat) (m : Measurements) (bl : list MeasurementBlock) : Prop :=
  N.to_nat (m_total_blocks m) <= MAX_MEASUREMENT_BLOCKS /\ is_byte (m_total_blocks m) /\
  (m_slot_id m < 16)%N /\ N.to_nat (m_slot_id m) < NUM_SLOTS /\
  mbs_has (m_blocks m) bl /\ (N.of_nat (length bl) < 256)%N /\ (record_len bl < 16777216)%N /\ Forall mb_ok bl /\
  Forall (fun b => is_byte (mb_index b) /\ bytes (value_bytes (dm_value (mb_measurement b)))) bl /\
  nonce_ok (m_nonce m) /\ bytes (m_nonce m) /\
  od_ok (m_opaque_data m) /\ Forall (fun e => bytes (oe_data e)) (m_opaque_data m) /\
  length (opaque_bytes (m_opaque_data m)) <= 1024 /\
  (if sr then exists s, m_signature m = Some s /\ length s = ss /\ bytes s else m_signature m = None).
(** The layout of [m] as written: the slot is on the wire only with a signature. *)
Definition meas_wire (m : Measurements) (bl : list MeasurementBlock) : list N :=
  measurements_layout (m_total_blocks m)
    (match m_signature m with Some _ => m_slot_id m | None => 0%N end) (m_content_changed m) 0 bl
    (m_nonce m) (N.of_nat (length (opaque_bytes (m_opaque_data m)))) (m_opaque_data m) (sig_bytes (m_signature m)).
Definition m_visible (m : Measurements) : Measurements :=
  match m_signature m with
  | Some _ => m
  | None => mkMeasurements (m_total_blocks m) (m_content_changed m) 0 (m_blocks m) (m_nonce m) (m_opaque_data m) None
  end.

Theorem C19_measurements_write sr ss m bl : meas_valid sr ss m bl ->
  writes_exactly (write_measurements m) meas_error ([0x12; 0x60]%N ++ meas_wire m bl).
Proof.
  intros (H1 & H1' & H2 & H3 & H4 & H5 & H6 & H7 & H8 & H9 & H10 & H11 & H12 & H13 & H14).
  refine (writes_ofS Measurements_id wm_from _ meas_error _ (or_introl eq_refl) _).
  apply emits_measurements; auto.
  - eapply Forall_impl; [|exact H7]. intros b (_ & _ & ?). auto.
  - now apply od_ok_matches.
  - lia.
Qed.
Lemma blocks_is_bytes bl : (N.of_nat (length bl) < 256)%N -> Forall mb_ok bl ->
  Forall (fun b => is_byte (mb_index b) /\ bytes (value_bytes (dm_value (mb_measurement b)))) bl ->
  bytes (blocks_bytes bl).
Proof.
  intros H1 H2 H3. unfold blocks_bytes. bts. rewrite Forall_forall in *. intros b Hin.
  destruct (H2 b Hin) as (S1 & S2 & S3). destruct (H3 b Hin) as (S4 & S5).
  unfold block_bytes, dmtf_bytes. bts.
  - rewrite S1. red; lia.
  - destruct (dm_representation _), (dm_type _); red; simpl; lia.
Qed.
Lemma meas_is_bytes sr ss m bl : meas_valid sr ss m bl -> bytes (meas_wire m bl).
Proof.
  intros (H1 & H1' & H2 & H3 & H4 & H5 & H6 & H7 & H8 & H9 & H10 & H11 & H12 & H13 & H14).
  unfold meas_wire, measurements_layout. bts.
  - destruct (m_signature m), (m_content_changed m); red; simpl content_changed_code; lia.
  - now apply blocks_is_bytes.
  - now apply od_is_bytes.
  - destruct sr; [destruct H14 as (s & -> & _ & ?); auto|rewrite H14; constructor].
Qed.
(** The round trip, for records within the parser's own limit
    MAX_MEASUREMENT_SIZE * MAX_MEASUREMENT_BLOCKS including block headers
    (missing: larger records of valid blocks, which the parser refuses, below). *)
Theorem C19_measurements_round_trip_partial sr ss m bl : meas_valid sr ss m bl ->
  (record_len bl <= N.of_nat MAX_MEASUREMENT_SIZE * N.of_nat MAX_MEASUREMENT_BLOCKS)%N ->
  round_trips (write_measurements m) (fun buf => measurements_parse_body buf sr ss) (m_visible m).
Proof.
  intros H HL. pose proof H as (H1 & H1' & H2 & H3 & H4 & H5 & H6 & H7 & H8 & H9 & H10 & H11 & H12 & H13 & H14).
  change (fun buf => measurements_parse_body buf sr ss) with (run_parser (measurements_parse sr ss)).
  refine (round_trips_of _ _ _ _ _ _ _ _ _ (C19_measurements_write sr ss m bl H) (rspec_measurements sr ss) _ _).
  - exact (meas_is_bytes sr ss m bl H).
  - exists 0%N, (N.of_nat (length (opaque_bytes (m_opaque_data m)))), bl.
    split; [lia|]. split; [lia|]. unfold m_visible, meas_wire, meas_ok, meas_bytes, mbs_fits.
    destruct sr; [destruct H14 as (s & Es & Ls & Bs)|rename H14 into Es]; rewrite Es; simpl.
    + rewrite Es. simpl. repeat split; auto; try lia; try apply H4; try apply H11. eauto.
    + repeat split; auto; try lia; try apply H4; try apply H11.
Qed.
(** A record of valid blocks over that limit is written but never parsed back. *)
Theorem C19_large_record_refuted sr ss m bl buf n out : meas_valid sr ss m bl -> bytes buf ->
  (N.of_nat MAX_MEASUREMENT_SIZE * N.of_nat MAX_MEASUREMENT_BLOCKS < record_len bl)%N ->
  write_measurements m buf = (Ok n, out) ->
  exists e, measurements_parse_body (skipn 2 out) sr ss = Err e.
Proof.
  intros H Hb HL Hw.
  destruct (writes_inv _ _ _ _ _ _ (C19_measurements_write sr ss m bl H) Hw) as (_ & _ & ->).
  rewrite <- !app_assoc. change (skipn 2 ([0x12; 0x60]%N ++ ?x)) with x.
  assert (HB : bytes (meas_wire m bl ++ skipn (length ([0x12; 0x60]%N ++ meas_wire m bl)) buf)).
  { bts; [exact (meas_is_bytes sr ss m bl H)|now apply bytes_skipn]. }
  revert HB. generalize (skipn (length ([0x12; 0x60]%N ++ meas_wire m bl)) buf) as rest. intros rest HB.
  pose proof H as (_ & _ & _ & _ & _ & _ & H6 & _).
  assert (K : forall n' size r p0 p1, (size < 16777216)%N ->
     meas_wire m bl ++ rest = [p0] ++ [p1] ++ [n'] ++ u24le size ++ r -> size = record_len bl).
  { intros n' size r p0 p1 Hs E. unfold meas_wire, measurements_layout, blocks_bytes in E.
    rewrite <- !app_assoc in E. do 3 (apply split_eq in E as [_ E]; [|reflexivity]).
    apply split_eq in E as [E _]; [|reflexivity]. symmetry. apply (le_bytes_inj 3); auto. }
  destruct (measurements_parse_body _ sr ss) as [m'|e|p] eqn:E; eauto; exfalso.
  - apply (parses_of _ _ _ (rspec_measurements sr ss)) in E; auto.
    destruct E as (bs & r & E & rsvd & olen & bl' & _ & _ & (_ & _ & _ & _ & (F1 & F2 & F3) & _) & ->).
    unfold meas_bytes, measurements_layout, blocks_bytes in E. rewrite <- !app_assoc in E.
    apply K in E; auto. unfold record_len in *. lia.
  - assert (X : meas_overflow (meas_wire m bl ++ rest)).
    { apply (run_panic _ _ _ (rspec_measurements sr ss)); auto. eauto. }
    destruct X as (t & s & cc & rs & r & _ & _ & _ & _ & E1 & [X|X]).
    + destruct X as (n' & size & bl' & b & r' & -> & (F1 & F2) & _).
      apply K in E1; auto. lia.
    + destruct X as (bl' & nn & olen & r' & (F1 & F2 & F3) & _ & _ & _ & _ & _ & ->).
      unfold blocks_bytes in E1. rewrite <- !app_assoc in E1. apply K in E1; auto. unfold record_len in *. lia.
Qed.
(** Everything accepted has consistent size fields: the layout computes them
    from the bytes that follow. *)
Theorem C19_measurements_parse sr ss :
  parses_exactly (fun buf => measurements_parse_body buf sr ss)
    (fun bs m => exists rsvd olen bl, (rsvd < 4)%N /\ (olen <= 1024)%N /\ meas_ok sr ss m bl /\ bs = meas_bytes rsvd olen bl m).
Proof. exact (parses_of _ _ _ (rspec_measurements sr ss)). Qed.
End Props.

#[local] Existing Instance sample_cfg.
Definition sample_gm : GetMeasurements := mkGM (mkRA true false) (ImplementationDefined 5) (Some sample_nonce) 3.
Example C18_nonvacuous : gm_ok sample_gm /\ gm_typed sample_gm /\ ~ index_ok (Reserved 3) /\
  get_measurements_parse_body (get_measurements_layout sample_gm) = Ok sample_gm.
Proof.
  split; [|split; [|split]].
  - split; [vm_compute; split; discriminate|]. split; [apply Nat.ltb_lt; reflexivity|exists sample_nonce; split; reflexivity].
  - split; [reflexivity|]. split; [apply Nat.ltb_lt; reflexivity|]. split; [reflexivity|].
    intros n [= <-]. split; [reflexivity|apply bytes_check; reflexivity].
  - simpl. lia.
  - vm_compute. reflexivity.
Qed.
Definition sample_block : MeasurementBlock := mkMB 1 1 (mkDM ReprRawBitStream VTHardwareConfig (MVBitStream [1; 2; 3; 4]%N)).
Definition sample_meas (bl : list MeasurementBlock) (k : nat) : Measurements :=
  mkMeasurements 0 CCTrue 2 (mkMBs (length bl) (map Some bl ++ repeat None (k - length bl))) sample_nonce sample_opaque (Some (repeat 6%N 8)).
Lemma sample_block_ok : mb_ok sample_block.
Proof. split; [reflexivity|]. split; [split; [apply Nat.leb_le|]; reflexivity|reflexivity]. Qed.
Example C19_nonvacuous : meas_valid true 8 (sample_meas [sample_block; sample_block] 8) [sample_block; sample_block] /\
  (record_len [sample_block; sample_block] <= N.of_nat MAX_MEASUREMENT_SIZE * N.of_nat MAX_MEASUREMENT_BLOCKS)%N.
Proof.
  pose proof C17_nonvacuous as (HO & _).
  split; [|vm_compute; discriminate].
  refine (conj _ (conj _ (conj _ (conj _ (conj _ (conj _ (conj _ (conj _ (conj _ (conj _ (conj _ (conj HO (conj _ (conj _ _))))))))))))));
    try reflexivity.
  - apply Nat.leb_le; reflexivity.
  - apply Nat.ltb_lt; reflexivity.
  - split; [apply Nat.leb_le; reflexivity|]. split; reflexivity.
  - repeat (apply Forall_cons; [exact sample_block_ok|]). constructor.
  - repeat (apply Forall_cons; [split; [reflexivity|apply bytes_check; reflexivity]|]). constructor.
  - apply bytes_check; reflexivity.
  - repeat (apply Forall_cons; [apply bytes_check; reflexivity|]). constructor.
  - apply Nat.leb_le. reflexivity.
  - exists (repeat 6%N 8). split; [reflexivity|]. split; [reflexivity|apply bytes_check; reflexivity].
Qed.
(** Eight full blocks meet the hypotheses of the refutation. *)
Definition big_block : MeasurementBlock :=
  mkMB 1 1 (mkDM ReprRawBitStream VTHardwareConfig (MVBitStream (repeat 7%N 1024))).
Definition big_record : list MeasurementBlock := repeat big_block 8.
Example C19_large_nonvacuous : meas_valid true 8 (sample_meas big_record 8) big_record /\
  (N.of_nat MAX_MEASUREMENT_SIZE * N.of_nat MAX_MEASUREMENT_BLOCKS < record_len big_record)%N.
Proof.
  pose proof C17_nonvacuous as (HO & _).
  assert (B : mb_ok big_block).
  { split; [reflexivity|]. split; [split; [apply Nat.leb_le|]; vm_compute; reflexivity|vm_compute; reflexivity]. }
  assert (B' : is_byte 1 /\ bytes (repeat 7%N 1024)).
  { split; [reflexivity|]. apply bytes_check. vm_compute. reflexivity. }
  split; [|vm_compute; reflexivity].
  refine (conj _ (conj _ (conj _ (conj _ (conj _ (conj _ (conj _ (conj _ (conj _ (conj _ (conj _ (conj HO (conj _ (conj _ _)))))))))))))).
  - apply Nat.leb_le; reflexivity.
  - reflexivity.
  - reflexivity.
  - apply Nat.ltb_lt; reflexivity.
  - split; [apply Nat.leb_le; reflexivity|]. split; reflexivity.
  - reflexivity.
  - vm_compute; reflexivity.
  - repeat (apply Forall_cons; [exact B|]). constructor.
  - repeat (apply Forall_cons; [exact B'|]). constructor.
  - reflexivity.
  - apply bytes_check; reflexivity.
  - repeat (apply Forall_cons; [apply bytes_check; reflexivity|]). constructor.
  - apply Nat.leb_le. reflexivity.
  - exists (repeat 6%N 8). split; [reflexivity|]. split; [reflexivity|apply bytes_check; reflexivity].
Qed.
Print Assumptions C18_get_measurements_round_trip.
Print Assumptions C19_measurements_round_trip_partial.
Print Assumptions C19_large_record_refuted.
