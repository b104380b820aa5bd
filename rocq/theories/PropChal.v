(** C14, C15, C16, C17: CHALLENGE, CHALLENGE_AUTH, ERROR and opaque data. *)
From Verif Require Import Base BaseLemmas Config Encoding MsgCommon MsgChallenge MsgError SpecWire
     WriterLogic ReaderLogic ReaderLoops GramBasic GramOpaque GramChal PropTools Sample.

Section Props.
Context {cfg : Config}.

Definition write_challenge (m : Challenge) := write_msg Challenge_id (fun e => e) (challenge_write_body m).
Definition write_challenge_auth (m : ChallengeAuth) := write_msg ChallengeAuth_id wca_from (challenge_auth_write_body m).
Definition write_error (m : ErrorMsg) := write_msg Error_id (fun e => e) (error_write_body m).

(** * C14 *)
Theorem C14_challenge_write m :
  writes_exactly (write_challenge m) (fun e => e = BufferFull)
    ([0x11; 0x83]%N ++ challenge_layout (ch_slot m) (ch_measurement_hash_type m) (ch_nonce m)).
Proof. exact (writes_of Challenge_id (fun e => e) _ _ (emits_challenge m 2)). Qed.
Theorem C14_challenge_parse :
  parses_exactly challenge_parse_body
    (fun bs m => nonce_ok (ch_nonce m) /\
                 bs = challenge_layout (ch_slot m) (ch_measurement_hash_type m) (ch_nonce m)).
Proof. exact (parses_of _ _ _ rspec_challenge). Qed.
Theorem C14_challenge_round_trip m : is_byte (ch_slot m) -> nonce_ok (ch_nonce m) -> bytes (ch_nonce m) ->
  round_trips (write_challenge m) challenge_parse_body m.
Proof.
  intros H1 H2 H3. eapply round_trips_of; [apply C14_challenge_write|apply rspec_challenge| |cbv beta; auto].
  unfold challenge_layout. bts. destruct (ch_measurement_hash_type m); red; simpl; lia.
Qed.
(** Any other measurement hash type byte is refused. *)
Theorem C14_hash_type_refused slot t rest : bytes (slot :: t :: rest) ->
  t <> 0%N -> t <> 1%N -> t <> 255%N -> exists e, challenge_parse_body (slot :: t :: rest) = Err e.
Proof.
  intros Hb H0 H1 H2. destruct (challenge_parse_body (slot :: t :: rest)) as [m|e|p] eqn:E; eauto; exfalso.
  - apply C14_challenge_parse in E; auto. destruct E as (bs & r & E & _ & ->). unfold challenge_layout in E.
    simpl in E. injection E as _ -> _. destruct (ch_measurement_hash_type m); simpl in *; lia.
  - exact (nopanic_of _ _ rspec_challenge _ Hb p E).
Qed.

(** * C17 *)
(** Writing opaque data and asking the Writer for its offset. *)
Definition write_opaque (d : OpaqueData) : M Writer WriteOpaqueElementError nat := od_write d ;;; w_offset.

Theorem C17_opaque_write d : Forall vendor_matches d ->
  writes_exactly (write_on (write_opaque d)) (fun e => e = WOEBufferFull) (opaque_bytes d) /\
  od_serialized_size d = length (opaque_bytes d).
Proof.
  intros H. split; [|now apply od_size_eq]. apply write_on_of. unfold write_opaque.
  eapply emits_eq; [eapply emits_bind; [apply (emits_od d 0 H)|apply emits_offset]|now rewrite app_nil_r|reflexivity].
Qed.
(** Every element occupies a multiple of four bytes and is the unpadded element
    followed by fewer than four zeros. *)
Theorem C17_alignment e :
  length (opaque_element_bytes e) mod 4 = 0 /\
  exists raw k, opaque_element_bytes e = raw ++ zeros k /\ k < 4 /\
    raw = [registry_code (oe_registry e)] ++ [N.of_nat (length (vendor_id_bytes (oe_vendor e)))] ++
          vendor_id_bytes (oe_vendor e) ++ u16le (N.of_nat (length (oe_data e))) ++ oe_data e.
Proof.
  split; [apply pad4_len|]. eexists _, _. split; [reflexivity|]. split; [|reflexivity]. apply Nat.mod_upper_bound. lia.
Qed.
Theorem C17_opaque_read : parses_exactly (run_parser od_read) (fun bs d => od_ok d /\ bs = opaque_bytes d).
Proof. exact (parses_of _ _ _ rspec_od). Qed.

Lemma oe_is_bytes e : oe_wire_ok e -> bytes (oe_data e) -> bytes (opaque_element_bytes e).
Proof.
  intros (H1 & H2 & H3) Hd. unfold opaque_element_bytes, pad4. bts.
  - destruct (oe_registry e); red; simpl; lia.
  - destruct (oe_vendor e); red; simpl; lia.
  - destruct (oe_vendor e); simpl; unfold vendor_id_bytes; bts.
Qed.
Lemma od_is_bytes d : od_ok d -> Forall (fun e => bytes (oe_data e)) d -> bytes (opaque_bytes d).
Proof.
  intros (H1 & H2 & H3) Hd. unfold opaque_bytes. bts. rewrite Forall_forall in *. intros e He.
  destruct (H1 e He). apply oe_is_bytes; auto.
Qed.
Theorem C17_opaque_round_trip d buf n out : od_ok d -> Forall (fun e => bytes (oe_data e)) d -> bytes buf ->
  write_on (write_opaque d) buf = (Ok n, out) -> run_parser od_read out = Ok d.
Proof.
  intros H1 H2 H3 Hw.
  assert (Hm : Forall vendor_matches d) by (destruct H1 as (H & _); eapply Forall_impl; [|exact H]; intros ? [[]]; auto).
  destruct (writes_inv _ _ _ _ _ _ (proj1 (C17_opaque_write d Hm)) Hw) as (-> & Hl & ->).
  apply C17_opaque_read.
  - bts; [now apply od_is_bytes|now apply bytes_skipn].
  - eauto.
Qed.
(** A vendor id of the wrong length is refused when writing, whatever the buffer... *)
Lemma iter_refuses d : forall w, w_wf w -> ~ Forall vendor_matches d ->
  exists er w', iterM d oe_write w = (Err er, w').
Proof.
  induction d as [|e d IH]; intros w Hw Hn; [exfalso; auto|]. simpl. unfold bind.
  assert (D : {vendor_matches e} + {~ vendor_matches e}) by (unfold vendor_matches; apply Nat.eq_dec).
  destruct D as [D|D].
  - destruct (emits_oe e (w_off w) D w Hw eq_refl) as [E1 E2].
    destruct (Nat.le_gt_cases (w_off w + length (opaque_element_bytes e)) (length (w_buf w))) as [L|L].
    + rewrite (E1 L). apply IH; [now apply w_app_wf|]. intros HF. apply Hn. constructor; auto.
    + destruct (E2 L) as (k & _ & _ & ->). eauto.
  - destruct (oe_write_mismatch e w D Hw) as (er & w' & ->). eauto.
Qed.
Theorem C17_write_refuses_mismatch d buf : ~ Forall vendor_matches d ->
  exists e, fst (write_on (write_opaque d) buf) = Err e.
Proof.
  intros Hn. unfold write_on, write_opaque, od_write.
  set (m := map_err woe_from (put (N.of_nat (length d))) ;;; map_err woe_from (put_reserved 3) ;;; iterM d oe_write).
  assert (K : exists er w', m (writer_new buf) = (Err er, w')).
  { unfold m. assert (Hp : emits 0 (map_err woe_from (put (N.of_nat (length d))) ;;; map_err woe_from (put_reserved 3))
              WOEBufferFull ([N.of_nat (length d)] ++ zeros 3) 4).
    { eapply emits_eq; [eapply emits_bind; [eapply emits_map_err; [apply emits_put|reflexivity]|
        eapply emits_map_err; [apply emits_put_reserved|reflexivity]]|reflexivity|reflexivity]. }
    destruct (Hp (writer_new buf)) as [P1 P2]; [unfold w_wf; simpl; lia|reflexivity|].
    change (m (writer_new buf)) with m. unfold m. unfold bind in *.
    destruct (Nat.le_gt_cases 4 (length buf)) as [L|L].
    - specialize (P1 L). destruct (map_err woe_from (put _) (writer_new buf)) as [[x|x|x] w1]; try discriminate.
      rewrite P1. apply iter_refuses; auto. apply w_app_wf. simpl; lia.
    - destruct (P2 L) as (k & _ & _ & P3). destruct (map_err woe_from (put _) (writer_new buf)) as [[x|x|x] w1]; try discriminate.
      + rewrite P3. eauto.
      + eauto. }
  destruct K as (er & w' & K). unfold bind at 1. fold m. rewrite K. simpl. eauto.
Qed.
(** ... and when reading. *)
Theorem C17_read_refuses_mismatch buf d : bytes buf -> run_parser od_read buf = Ok d -> Forall vendor_matches d.
Proof.
  intros Hb H. apply C17_opaque_read in H; auto. destruct H as (bs & rest & _ & (H & _) & _).
  eapply Forall_impl; [|exact H]. intros ? [[]]; auto.
Qed.

(** * C15 *)
Definition ca_error (e : WriteChallengeAuthError) : Prop := e = WCABufferFull \/ e = WCAWriteOpaqueElement WOEBufferFull.
(** A message the writer accepts: slot in range, opaque data within its limit. *)
Definition ca_valid (ds ss : nat) (m : ChallengeAuth) : Prop :=
  ca_fields_ok ds ss m /\ N.to_nat (ca_slot m) < NUM_SLOTS /\ length (opaque_bytes (ca_opaque_data m)) <= 1024 /\
  is_byte (ca_slot_mask m) /\ bytes (ca_cert_chain_hash m) /\ bytes (ca_nonce m) /\
  bytes (ca_measurement_summary_hash m) /\ Forall (fun e => bytes (oe_data e)) (ca_opaque_data m) /\ bytes (ca_signature m).

Lemma od_ok_matches d : od_ok d -> Forall vendor_matches d.
Proof. intros (H & _). eapply Forall_impl; [|exact H]; intros ? [[]]; auto. Qed.
Lemma slot_low s : (s < 16)%N -> N.land s 128 = 0%N.
Proof.
  intros H. assert (E : N.of_nat (N.to_nat s) = s) by lia. rewrite <- E.
  assert (L : N.to_nat s < 16) by lia. revert L. generalize (N.to_nat s). intros n L.
  do 16 (destruct n as [|n]; [reflexivity|]). lia.
Qed.

(** What is written: the layout, except that with mutual authentication
    requested the first byte is 0. *)
Theorem C15_challenge_auth_write ds ss m : ca_valid ds ss m ->
  writes_exactly (write_challenge_auth m) ca_error
    ([0x11; 0x03]%N ++
     challenge_auth_layout (if ca_use_mutual_auth m then 0 else ca_slot m) 0 false (ca_slot_mask m)
       (ca_cert_chain_hash m) (ca_nonce m) (ca_measurement_summary_hash m)
       (N.of_nat (length (opaque_bytes (ca_opaque_data m)))) (ca_opaque_data m) (ca_signature m)).
Proof.
  intros ((H1 & H2 & H3 & H4 & H5 & H6 & H7) & Hs & Ho & _).
  pose proof (emits_challenge_auth m 2 Hs (od_ok_matches _ H6) Ho) as W.
  rewrite slot_low in W by auto.
  replace (challenge_auth_layout (if ca_use_mutual_auth m then 0%N else ca_slot m) 0 false (ca_slot_mask m)
       (ca_cert_chain_hash m) (ca_nonce m) (ca_measurement_summary_hash m)
       (N.of_nat (length (opaque_bytes (ca_opaque_data m)))) (ca_opaque_data m) (ca_signature m))
    with (challenge_auth_wire m (if ca_use_mutual_auth m then 0%N else ca_slot m)).
  - apply (writes_ofS ChallengeAuth_id wca_from); [now left|exact W].
  - unfold challenge_auth_wire, challenge_auth_layout. f_equal. f_equal. simpl bit. destruct (ca_use_mutual_auth m); lia.
Qed.
Lemma ca_is_bytes slot ds ss m : (slot < 16)%N -> ca_valid ds ss m ->
  bytes (challenge_auth_layout slot 0 false (ca_slot_mask m)
       (ca_cert_chain_hash m) (ca_nonce m) (ca_measurement_summary_hash m)
       (N.of_nat (length (opaque_bytes (ca_opaque_data m)))) (ca_opaque_data m) (ca_signature m)).
Proof.
  intros Hs ((H1 & H2 & H3 & H4 & H5 & H6 & H7) & _ & _ & B1 & B2 & B3 & B4 & B5 & B6).
  unfold challenge_auth_layout. bts.
  - red. simpl bit. lia.
  - now apply od_is_bytes.
Qed.
(** What comes back: the message with slot 0 and the mutual authentication bit
    clear if mutual authentication was requested, else the message. *)
Theorem C15_challenge_auth_reads_back ds ss m : ca_valid ds ss m ->
  round_trips (write_challenge_auth m) (fun buf => challenge_auth_parse_body buf ds ss)
    (mkChallengeAuth (if ca_use_mutual_auth m then 0 else ca_slot m) (ca_slot_mask m) false
       (ca_cert_chain_hash m) (ca_nonce m) (ca_measurement_summary_hash m) (ca_opaque_data m) (ca_signature m)).
Proof.
  intros H. pose proof (C15_challenge_auth_write ds ss m H) as W.
  pose proof H as ((H1 & H2 & H3 & H4 & H5 & H6 & H7) & Hs & Ho & _).
  change (fun buf => challenge_auth_parse_body buf ds ss) with (run_parser (challenge_auth_parse ds ss)).
  refine (round_trips_of _ _ _ _ _ _ _ _ _ W (rspec_challenge_auth ds ss) _ _).
  - apply (ca_is_bytes _ ds ss); auto. destruct (ca_use_mutual_auth m); lia.
  - exists 0%N, (N.of_nat (length (opaque_bytes (ca_opaque_data m)))).
    split; [lia|]. split; [lia|]. split; [|reflexivity].
    unfold ca_fields_ok; simpl. repeat split; auto; try (destruct (ca_use_mutual_auth m); lia); apply H6.
Qed.
(** The property, for messages that do not request mutual authentication
    (missing: messages that do, for which it is false, see below). *)
Corollary C15_challenge_auth_round_trip_partial ds ss m : ca_valid ds ss m -> ca_use_mutual_auth m = false ->
  round_trips (write_challenge_auth m) (fun buf => challenge_auth_parse_body buf ds ss) m.
Proof.
  intros H Hm. pose proof (C15_challenge_auth_reads_back ds ss m H) as R. rewrite Hm in R.
  destruct m; simpl in *. subst. exact R.
Qed.
(** With mutual authentication requested the round trip always fails. *)
Theorem C15_mutual_auth_refuted ds ss m buf n out : ca_valid ds ss m -> ca_use_mutual_auth m = true -> bytes buf ->
  write_challenge_auth m buf = (Ok n, out) -> challenge_auth_parse_body (skipn 2 out) ds ss <> Ok m.
Proof.
  intros H Hm Hb Hw Hp. destruct (C15_challenge_auth_reads_back ds ss m H buf n out Hb Hw) as [_ R].
  rewrite R in Hp. injection Hp as Hp. rewrite Hm in Hp. apply (f_equal ca_use_mutual_auth) in Hp. simpl in Hp. congruence.
Qed.
(** What the parser accepts. *)
Theorem C15_challenge_auth_parse ds ss :
  parses_exactly (fun buf => challenge_auth_parse_body buf ds ss)
    (fun bs m => exists rsvd olen, (rsvd < 8)%N /\ (olen <= 1024)%N /\ ca_fields_ok ds ss m /\ bs = ca_bytes rsvd olen m).
Proof. exact (parses_of _ _ _ (rspec_challenge_auth ds ss)). Qed.

(** * C16 *)
(** The values of a constructible Error: fields are machine integers; the opaque
    vendor data has no public constructor and is empty in every value the crate
    creates. *)
Definition error_valid (m : ErrorMsg) : Prop :=
  error_ok m /\
  match m with
  | UnsupportedRequest c => is_byte c
  | LargeResponse h => is_byte h
  | RespNotReady v => is_byte (rnr_rdt_exponent v) /\ is_byte (rnr_request_code v) /\ is_byte (rnr_token v) /\ is_byte (rnr_rdtm v)
  | VendorDef _ v => vd_opaque v = []
  | _ => True
  end.
Theorem C16_error_write m :
  writes_exactly (write_error m) (fun e => e = BufferFull) ([0x12; 0x7F]%N ++ error_layout m).
Proof. exact (writes_of Error_id (fun e => e) _ _ (emits_error m 2)). Qed.
Theorem C16_error_round_trip m : error_valid m -> round_trips (write_error m) error_parse_body m.
Proof.
  intros [H1 H2]. eapply round_trips_of; [apply C16_error_write|apply rspec_error| |].
  - unfold error_layout, error_ext. bts.
    + destruct m; red; simpl; lia.
    + destruct m; simpl; try (red; lia); auto. destruct id; red; simpl; lia.
    + destruct m; bts; try apply H2; try (destruct H2 as (? & ? & ? & ?); assumption).
      * destruct (vd_vendor_id v); red; simpl; lia.
      * destruct (vd_vendor_id v); simpl; unfold vendor_id_bytes; bts.
      * rewrite H2. constructor.
  - split; [auto|]. split; [destruct m; auto|]. exists (match error_data m with Some d => d | None => 0%N end).
    split; [destruct (error_data m); auto|reflexivity].
Qed.
Theorem C16_error_parse : parses_exactly error_parse_body error_accepts.
Proof. exact (parses_of _ _ _ rspec_error). Qed.
(** The error codes are pairwise distinct, so no two kinds of error are confused. *)
Theorem C16_codes_distinct a b : error_code a = error_code b -> error_data a = error_data b ->
  error_ext a = error_ext b -> error_valid a -> error_valid b -> a = b.
Proof.
  intros E1 E2 E3 [O1 V1] [O2 V2].
  destruct a; destruct b; try discriminate E1; try reflexivity; simpl in *.
  - congruence.
  - f_equal. apply (le_bytes_inj 4); [exact O1|exact O2|exact E3].
  - congruence.
  - destruct v, v0; simpl in *. congruence.
  - destruct v as [i1 o1], v0 as [i2 o2]; simpl in *. subst o1 o2. rewrite !app_nil_r in E3.
    f_equal; [destruct id, id0; simpl in E2; congruence|]. f_equal.
    destruct i1, i2; simpl in E3, O1, O2; try discriminate; try reflexivity.
    + f_equal. apply (le_bytes_inj 2); [exact O1|exact O2|]. exact (f_equal (@tl N) E3).
    + f_equal. apply (le_bytes_inj 4); [exact O1|exact O2|]. exact (f_equal (@tl N) E3).
Qed.
End Props.

#[local] Existing Instance sample_cfg.
Definition sample_nonce : list N := repeat 5%N 32.
Example C14_nonvacuous : nonce_ok sample_nonce /\
  challenge_parse_body (challenge_layout 2 MHTcb sample_nonce) = Ok (mkChallenge 2 MHTcb sample_nonce).
Proof. split; vm_compute; reflexivity. Qed.
Definition sample_opaque : OpaqueData := [mkOE Iana (VU32 7) [1; 2; 3]%N; mkOE Dmtf VEmpty [9]%N].
Example C17_nonvacuous : od_ok sample_opaque /\ Forall vendor_matches sample_opaque /\
  length (opaque_bytes sample_opaque) = 24 /\ run_parser od_read (opaque_bytes sample_opaque) = Ok sample_opaque /\
  ~ Forall vendor_matches [mkOE Dmtf (VU16 7) [9]%N].
Proof.
  split; [|split; [|split; [|split]]].
  - split; [|vm_compute; split; [lia|reflexivity]].
    repeat (apply Forall_cons; [repeat split; simpl; try lia; try reflexivity|]). constructor.
  - repeat (apply Forall_cons; [reflexivity|]). constructor.
  - reflexivity.
  - vm_compute. reflexivity.
  - intros H. inversion H as [|? ? X]. discriminate X.
Qed.
Definition sample_ca (mutual : bool) : ChallengeAuth :=
  mkChallengeAuth 3 8 mutual (repeat 1%N 4) sample_nonce (repeat 2%N 4) sample_opaque (repeat 3%N 8).
Example C15_nonvacuous b : ca_valid 4 8 (sample_ca b).
Proof.
  pose proof C17_nonvacuous as (H & _).
  refine (conj _ (conj _ (conj _ (conj _ (conj _ (conj _ (conj _ (conj _ _)))))))).
  - refine (conj _ (conj _ (conj _ (conj _ (conj _ (conj H _)))))); try reflexivity. apply Nat.leb_le; reflexivity.
  - apply Nat.ltb_lt; reflexivity.
  - apply Nat.leb_le. vm_compute. reflexivity.
  - reflexivity.
  - apply bytes_check; reflexivity.
  - apply bytes_check; reflexivity.
  - apply bytes_check; reflexivity.
  - repeat (apply Forall_cons; [apply bytes_check; reflexivity|]). constructor.
  - apply bytes_check; reflexivity.
Qed.
Example C16_nonvacuous : error_valid (VendorDef Iana (mkVD (VU32 77) [])) /\ error_valid (ResponseTooLarge 70000) /\
  error_parse_body (error_layout (VendorDef Iana (mkVD (VU32 77) []))) = Ok (VendorDef Iana (mkVD (VU32 77) [])).
Proof. split; [|split]; [split; reflexivity|split; [reflexivity|exact I]|vm_compute; reflexivity]. Qed.
Print Assumptions C15_challenge_auth_reads_back.
Print Assumptions C16_error_round_trip.
Print Assumptions C17_opaque_round_trip.
Print Assumptions C17_write_refuses_mismatch.
