(** C07, C08: VERSION and CAPABILITIES messages. *)
From Verif Require Import Base BaseLemmas Config Encoding MsgCommon MsgVersion MsgCapabilities SpecWire
     WriterLogic ReaderLogic ReaderLoops FlagLemmas GramBasic PropTools Sample.

Section Props.
Context {cfg : Config}.

Definition write_get_version := write_msg GetVersion_id (fun e => e) get_version_write_body.
Definition write_version (v : Version) := write_msg Version_id (fun e => e) (version_write_body v).
Definition write_get_capabilities (m : GetCapabilities) :=
  write_msg GetCapabilities_id (fun e => e) (get_capabilities_write_body m).
Definition write_capabilities (m : Capabilities) :=
  write_msg Capabilities_id (fun e => e) (capabilities_write_body m).
Definition is_full (e : BufferFullError) : Prop := e = BufferFull.

(** GET_VERSION. *)
Theorem C07_get_version_write : writes_exactly write_get_version is_full get_version_bytes.
Proof. exact (writes_of GetVersion_id (fun e => e) _ (zeros 2) (emits_get_version 2)). Qed.
Theorem C07_get_version_parse : parses_exactly get_version_parse_body (fun bs _ => bs = [0; 0]%N).
Proof. exact (parses_of _ _ _ rspec_get_version). Qed.

(** VERSION: the layout of the entries in use, followed by the unused (zero)
    cells of the two-entry array, which the code always writes. *)
Theorem C07_version_write v es : version_has v es -> Forall version_entry_ok es ->
  writes_exactly (write_version v) is_full
    ([0x10; 0x04]%N ++ version_body es ++ zeros (2 * (2 - length es))).
Proof.
  intros (H1 & H2 & H3) Hok.
  assert (Ha : Forall version_entry_ok (v_entries v)).
  { rewrite H3. apply Forall_app. split; auto. apply Forall_forall. intros x Hx.
    apply repeat_spec in Hx as ->. red; simpl; lia. }
  pose proof (writes_of Version_id (fun e => e) _ _ (emits_version v 2 Ha)) as W.
  replace (version_body es ++ zeros (2 * (2 - length es))) with
    ([0; 0; 0]%N ++ [v_num_entries v] ++ concat (map version_entry_bytes (v_entries v))); [exact W|].
  rewrite H2, H3. unfold version_body. rewrite map_app, concat_app, <- !app_assoc. do 3 f_equal.
  destruct es as [|a [|b [|c r]]]; simpl in *; try reflexivity; lia.
Qed.
(** With both entries in use it is the layout itself. *)
Corollary C07_version_write_full v a b : version_has v [a; b] -> version_entry_ok a -> version_entry_ok b ->
  writes_exactly (write_version v) is_full ([0x10; 0x04]%N ++ version_body [a; b]).
Proof.
  intros H Ha Hb. pose proof (C07_version_write v [a; b] H) as W. simpl zeros in W.
  rewrite app_nil_r in W. apply W. apply Forall_cons; auto.
Qed.
Theorem C07_version_round_trip v es : version_has v es -> Forall version_entry_ok es ->
  round_trips (write_version v) version_parse_body v.
Proof.
  intros H Hok buf n out Hb Hr.
  pose proof (C07_version_write v es H Hok) as W.
  destruct (writes_inv _ _ _ _ _ _ W Hr) as (-> & Hl & ->).
  assert (Hbb : bytes (version_body es)).
  { unfold version_body. destruct H as (Hl2 & _ & _). bts; try (red; lia).
    apply Forall_forall. intros. apply bytes_u16le. }
  rewrite firstn_app, Nat.sub_diag, firstn_all, firstn_O, app_nil_r.
  pose proof (bytes_zeros (2 * (2 - length es))) as Hz.
  split.
  - change (skipn 2 _) with (version_body es ++ zeros (2 * (2 - length es))).
    eapply run_ok; [apply rspec_version| |exists es; auto]. apply bytes_app; auto.
  - rewrite <- !app_assoc. change (skipn 2 ([0x10; 0x04]%N ++ ?x)) with x.
    eapply run_ok; [apply rspec_version| |exists es; auto].
    apply bytes_app; split; auto. apply bytes_app; split; auto. now apply bytes_skipn.
Qed.
(** The parser accepts exactly the VERSION bodies of at most 2 entries. *)
Theorem C07_version_parse :
  parses_exactly version_parse_body
    (fun bs v => exists es, version_has v es /\ Forall version_entry_ok es /\ bs = version_body es).
Proof. exact (parses_of _ _ _ rspec_version). Qed.
(** So more than two entries, non-zero reserved bytes or truncation is an error. *)
Theorem C07_version_rejects buf :
  bytes buf ->
  (exists a b c n rest, buf = a :: b :: c :: n :: rest /\ (a <> 0 \/ b <> 0 \/ c <> 0 \/ 2 < n \/
                        N.of_nat (length rest) < 2 * n)%N) \/ length buf < 4 ->
  exists e, version_parse_body buf = Err e.
Proof.
  intros Hb H. destruct (version_parse_body buf) as [v|e|p] eqn:E.
  - exfalso. apply C07_version_parse in E; auto. destruct E as (bs & rest & -> & es & (Hl & _ & _) & Hok & ->).
    assert (L : length (concat (map version_entry_bytes es)) = 2 * length es).
    { clear. induction es; [reflexivity|]. cbn [map concat length]. rewrite app_length, IHes. simpl length. lia. }
    destruct H as [(a & b & c & n & r & E & H)|H].
    + unfold version_body in E. simpl in E. injection E as E1 E2 E3 E4 E5. subst a b c n.
      apply (f_equal (@length N)) in E5. rewrite app_length, L in E5. lia.
    + unfold version_body in H. simpl in H. lia.
  - eauto.
  - exfalso. eapply (nopanic_of _ _ rspec_version); eauto.
Qed.

(** GET_CAPABILITIES and CAPABILITIES. *)
Theorem C08_get_capabilities_write m :
  writes_exactly (write_get_capabilities m) is_full
    ([0x11; 0xE1]%N ++ capabilities_layout (gc_ct_exponent m) (gc_flags m)).
Proof. exact (writes_of GetCapabilities_id (fun e => e) _ _ (emits_caps 2 _ _)). Qed.
Theorem C08_capabilities_write m :
  writes_exactly (write_capabilities m) is_full
    ([0x11; 0x61]%N ++ capabilities_layout (cap_ct_exponent m) (cap_flags m)).
Proof. exact (writes_of Capabilities_id (fun e => e) _ _ (emits_caps 2 _ _)). Qed.
Lemma caps_bytes ct fl : is_byte ct -> bytes (capabilities_layout ct fl).
Proof.
  intros H. unfold capabilities_layout. bts.
Qed.
Theorem C08_get_capabilities_round_trip m :
  is_byte (gc_ct_exponent m) -> only_bits req_flag_bits (gc_flags m) ->
  round_trips (write_get_capabilities m) get_capabilities_parse_body m.
Proof.
  intros Hc Hf. eapply round_trips_of; [apply C08_get_capabilities_write|apply rspec_get_capabilities| |cbv beta; auto].
  now apply caps_bytes.
Qed.
Theorem C08_capabilities_round_trip m :
  is_byte (cap_ct_exponent m) -> only_bits rsp_flag_bits (cap_flags m) ->
  round_trips (write_capabilities m) capabilities_parse_body m.
Proof.
  intros Hc Hf. eapply round_trips_of; [apply C08_capabilities_write|apply rspec_capabilities| |cbv beta; auto].
  now apply caps_bytes.
Qed.
Theorem C08_get_capabilities_parse :
  parses_exactly get_capabilities_parse_body
    (fun bs m => only_bits req_flag_bits (gc_flags m) /\ bs = capabilities_layout (gc_ct_exponent m) (gc_flags m)).
Proof. exact (parses_of _ _ _ rspec_get_capabilities). Qed.
Theorem C08_capabilities_parse :
  parses_exactly capabilities_parse_body
    (fun bs m => only_bits rsp_flag_bits (cap_flags m) /\ bs = capabilities_layout (cap_ct_exponent m) (cap_flags m)).
Proof. exact (parses_of _ _ _ rspec_capabilities). Qed.
End Props.

#[local] Existing Instance sample_cfg.

Example C07_nonvacuous : version_has version_default [mkVE 1 0 0 0; mkVE 1 1 0 0] /\
  Forall version_entry_ok [mkVE 1 0 0 0; mkVE 1 1 0 0] /\
  write_version version_default (repeat 7%N 10) =
    (Ok 10, [0x10; 0x04; 0; 0; 0; 2; 0; 16; 0; 17]%N).
Proof.
  split; [|split].
  - unfold version_has; simpl; auto.
  - repeat constructor; simpl; lia.
  - vm_compute. reflexivity.
Qed.
Example C08_nonvacuous : only_bits req_flag_bits 6 /\ only_bits rsp_flag_bits 0x16 /\
  get_capabilities_parse_body ([0; 0; 0; 12; 0; 0; 6; 0; 0; 0; 99]%N) = Ok (mkGetCapabilities 12 6) /\
  get_capabilities_parse_body ([0; 0; 0; 12; 0; 0; 1; 0; 0; 0]%N) = Err CapInvalidBitsSet.
Proof.
  split; [|split].
  - apply (from_bits_only ReqFlags_all req_flag_bits 6 6 ReqFlags_all_mask). reflexivity.
  - apply (from_bits_only RspFlags_all rsp_flag_bits 0x16 0x16 RspFlags_all_mask). reflexivity.
  - vm_compute. split; reflexivity.
Qed.
