(** A responder step against its specification: [served] is exactly what a
    successful handle_msg does. *)
From Verif Require Import Base BaseLemmas Config Encoding MsgCommon MsgVersion MsgCapabilities MsgAlgorithms MsgDigest
     MsgCertificates MsgChallenge MsgError Transcript Crypto Responder SpecWire SpecMsgs SpecResponder FlagLemmas GramCert
     PropTools PropTranscript PropVersionCaps PropAlg PropCerts PropChal PropGeneric PropTables RspParts.

#[local] Opaque chain_bytes.

Lemma bind_inv {St E A B} (m : M St E A) (k : A -> M St E B) s b s' :
  bind m k s = (Ok b, s') -> exists a s1, m s = (Ok a, s1) /\ k a s1 = (Ok b, s').
Proof. unfold bind. destruct (m s) as [[a|e|p] s1]; [eauto|discriminate|discriminate]. Qed.
Lemma bind_run {St E A B} (m : M St E A) (k : A -> M St E B) s a s1 : m s = (Ok a, s1) -> bind m k s = k a s1.
Proof. unfold bind. now intros ->. Qed.
Lemma lift_inv {St E A} (r : res E A) (s : St) a s' : lift r s = (Ok a, s') -> r = Ok a /\ s' = s.
Proof. unfold lift. intros [= -> ->]. auto. Qed.
Lemma map_err_inv {St E F A} (f : E -> F) (m : M St E A) s a s' : map_err f m s = (Ok a, s') -> m s = (Ok a, s').
Proof. unfold map_err. destruct (m s) as [[x|e|p] s1]; try discriminate. intros [= -> ->]. auto. Qed.
Lemma map_err_lift_inv {St E F A} (f : E -> F) (r : res E A) (s : St) a s' :
  map_err f (lift r) s = (Ok a, s') -> r = Ok a /\ s' = s.
Proof. intros H. apply map_err_inv in H. now apply lift_inv in H. Qed.
Lemma map_err_lift_run {St E F A} (f : E -> F) (r : res E A) (s : St) a : r = Ok a -> map_err f (lift r) s = (Ok a, s).
Proof. intros ->. reflexivity. Qed.
Lemma lift_run {St E A} (r : res E A) (s : St) a : r = Ok a -> lift r s = (Ok a, s).
Proof. intros ->. reflexivity. Qed.

Section Step.
Context {cfg : Config} {cr : Crypto}.

Lemma c_extend_inv bs c u c1 : t_wf (c_tr c) -> c_extend bs c = (Ok u, c1) ->
  c_rsp c1 = c_rsp c /\ t_wf (c_tr c1) /\ t_get (c_tr c1) = t_get (c_tr c) ++ bs.
Proof.
  intros W. unfold c_extend, map_err. destruct (t_extend_spec (c_tr c) bs W) as [H1 H2].
  destruct (Nat.le_gt_cases (t_len (c_tr c) + length bs) TRANSCRIPT_SIZE) as [L|L].
  - destruct (H1 L) as (t' & E1 & W' & G & _). rewrite E1. intros [= _ <-]. auto.
  - rewrite (H2 L). discriminate.
Qed.
Lemma c_extend_run bs c : t_wf (c_tr c) -> length (t_get (c_tr c)) + length bs <= TRANSCRIPT_SIZE ->
  exists t', c_extend bs c = (Ok tt, mkCtx (c_rsp c) t') /\ t_wf t' /\ t_get t' = t_get (c_tr c) ++ bs.
Proof.
  intros W L. rewrite t_get_length in L by auto. unfold c_extend, map_err.
  destruct (proj1 (t_extend_spec (c_tr c) bs W) L) as (t' & -> & W' & G & _). exists t'. auto.
Qed.
Lemma c_write_inv {E} (from : E -> ResponderError) w F enc c n c1 : writes_exactly w F enc ->
  c_write from w c = (Ok n, c1) ->
  n = length enc /\ length enc <= length (c_rsp c) /\ c1 = mkCtx (enc ++ skipn (length enc) (c_rsp c)) (c_tr c).
Proof.
  intros W H. unfold c_write in H. destruct (w (c_rsp c)) as [[a|e|p] buf] eqn:E1; try discriminate.
  injection H as -> <-. destruct (writes_inv _ _ _ _ _ _ W E1) as (-> & L & ->). auto.
Qed.
Lemma c_write_run {E} (from : E -> ResponderError) w F enc c : writes_exactly w F enc -> length enc <= length (c_rsp c) ->
  c_write from w c = (Ok (length enc), mkCtx (enc ++ skipn (length enc) (c_rsp c)) (c_tr c)).
Proof. intros W L. unfold c_write. now rewrite (proj1 (W (c_rsp c)) L). Qed.
Lemma c_prefix_inv n c o c1 : c_prefix n c = (Ok o, c1) -> o = firstn n (c_rsp c) /\ c1 = c.
Proof. unfold c_prefix. destruct (n <=? _); [|discriminate]. now intros [= <- <-]. Qed.
Lemma c_prefix_run n c : n <= length (c_rsp c) -> c_prefix n c = (Ok (firstn n (c_rsp c)), c).
Proof. intros H. unfold c_prefix. destruct (Nat.leb_spec n (length (c_rsp c))); [auto|lia]. Qed.

(** [parse_header]: the header bytes. *)
Lemma header_iff k req : parse_header (id_of k) req = Ok true <->
  2 < length req /\ starts_with [version_of k; code_of k] req.
Proof.
  destruct (Nat.le_gt_cases (length req) 2) as [L|L].
  - rewrite C20_short_panics by auto. split; [discriminate|lia].
  - rewrite (proj1 (C20_parse_header k req L)). destruct req as [|a [|b r]]; simpl in L; try lia. simpl. split.
    + intros [[= ->] [= ->]]. split; [auto|]. exists r. reflexivity.
    + intros [_ (rest & E)]. injection E as -> -> _. auto.
Qed.
Lemma header_false k req : parse_header (id_of k) req = Ok false <-> 2 < length req /\ nth_error req 1 <> Some (code_of k).
Proof.
  destruct (Nat.le_gt_cases (length req) 2) as [L|L].
  - rewrite C20_short_panics by auto. split; [discriminate|lia].
  - destruct (C20_parse_header k req L) as (_ & _ & ->). tauto.
Qed.
Lemma body_of_run {E} (a b : N) r : @body_of E (a :: b :: r) = Ok r.
Proof. reflexivity. Qed.
Lemma expect_inv k req : rsp_expect (id_of k) req = Ok tt -> parse_header (id_of k) req = Ok true.
Proof.
  unfold rsp_expect. destruct (parse_header (id_of k) req) as [[]|e|p]; auto; try discriminate.
  destruct (nth_error req 0); discriminate.
Qed.
Lemma expect_run k req : parse_header (id_of k) req = Ok true -> rsp_expect (id_of k) req = Ok tt.
Proof. unfold rsp_expect. now intros ->. Qed.

Lemma version_default_writes : writes_exactly (write_version version_default) is_full version_reply.
Proof.
  apply (C07_version_write version_default [mkVE 1 0 0 0; mkVE 1 1 0 0]).
  - split; [simpl; lia|]. split; reflexivity.
  - repeat constructor; simpl; lia.
Qed.

(** * What each handler does on success *)
(** A well-behaved outcome: response in the buffer, transcript and state as specified. *)
Definition did (slots : list (option FilledSlot)) rnd req st (c : Ctx) (size : nat) (st' : RspStates) (c' : Ctx) : Prop :=
  exists out log', served slots rnd req st (t_get (c_tr c)) out st' log' /\
    size = length out /\ length out <= length (c_rsp c) /\ c_rsp c' = out ++ skipn (length out) (c_rsp c) /\
    t_wf (c_tr c') /\ t_get (c_tr c') = log'.

Variable slots : list (option FilledSlot).
Variable rnd : Rnd.
Variable req : list N.
Hypothesis Hreq : bytes req.

Lemma get_version_sound st c size st' c' : t_wf (c_tr c) -> st <> RspError ->
  version_handle_msg req c = (Ok (size, st'), c') -> did slots rnd req st c size st' c'.
Proof.
  intros W S H. unfold version_handle_msg in H.
  destruct (parse_header GetVersion_id req) as [[]|e|p] eqn:E1; try discriminate.
  2: { destruct (nth_error req 0); discriminate. }
  change GetVersion_id with (id_of KGetVersion) in E1. apply header_iff in E1 as [L (rest & ->)]. simpl app in H.
  unfold handle_get_version in H.
  apply bind_inv in H as (body & c1 & H1 & H). apply lift_inv in H1 as [[= <-] ->].
  apply bind_inv in H as (u & c1 & H1 & H). apply map_err_lift_inv in H1 as [H1 ->].
  apply C07_get_version_parse in H1; [|apply bytes_app in Hreq; tauto]. destruct H1 as (bs & r & E2 & ->).
  apply bind_inv in H as (u2 & c1 & H1 & H). unfold c_clear in H1. injection H1 as _ <-.
  apply bind_inv in H as (u3 & c1 & H1 & H).
  destruct (t_clear_spec (c_tr c) W) as (W1 & G1 & _). apply c_extend_inv in H1; [|exact W1]. destruct H1 as (R1 & W2 & G2).
  cbn [c_rsp c_tr] in R1, G2. rewrite G1 in G2. cbn [app] in G2.
  apply bind_inv in H as (n & c2 & H1 & H).
  eapply c_write_inv in H1; [|exact version_default_writes]. destruct H1 as (-> & L1 & ->). rewrite R1 in *.
  apply bind_inv in H as (o & c2 & H1 & H). apply c_prefix_inv in H1 as [-> ->].
  cbn [c_rsp] in H. rewrite firstn_app_exact in H by reflexivity.
  apply bind_inv in H as (u4 & c2 & H1 & H). apply c_extend_inv in H1; [|exact W2]. destruct H1 as (R3 & W3 & G3).
  cbn [c_tr c_rsp] in R3, G3. injection H as <- <- <-.
  exists version_reply. eexists. split; [apply served_version; [exact S|]|].
  - exists r. simpl in E2 |- *. rewrite E2. reflexivity.
  - split; [reflexivity|]. split; [exact L1|]. split; [exact R3|]. split; [exact W3|]. rewrite G3, G2. reflexivity.
Qed.
Lemma reset_sound st c size st' c' rest : t_wf (c_tr c) -> st <> RspError ->
  reset_on_get_version req rest c = (Ok (size, st'), c') ->
  did slots rnd req st c size st' c' \/ rest c = (Ok (size, st'), c').
Proof.
  intros W S H. unfold reset_on_get_version in H.
  destruct (parse_header GetVersion_id req) as [[]|e|p] eqn:E1; try discriminate; [|auto].
  left. eapply get_version_sound; eauto.
Qed.
(** The tail of every handler: write, then log request and response. *)
Lemma own_flags_named m : config_to_capabilities_msg = Ok m ->
  cap_ct_exponent m = 12%N /\ (forall name, In name CAPABILITIES -> RspFlags_from_str name <> None) /\
  flags_named RspFlags_from_str CAPABILITIES (cap_flags m).
Proof.
  unfold config_to_capabilities_msg. destruct (flags_of_strings _ _ _ _) as [f|e|p] eqn:E1; try discriminate. intros [= <-].
  split; [reflexivity|]. simpl cap_flags.
  assert (HP : forall l fl f, flags_of_strings RspFlags_from_str RspParseCapability l fl = Ok f ->
             forall s, In s l -> exists v, RspFlags_from_str s = Some v).
  { clear. induction l as [|x l IH]; simpl; [tauto|]. intros fl f. destruct (RspFlags_from_str x) eqn:E; [|discriminate].
    intros H s [<-|Hs]; [eauto|eapply IH; eauto]. }
  pose proof (HP _ _ _ E1) as HA. destruct (flags_ok RspFlags_from_str RspParseCapability CAPABILITIES 0 HA) as (f' & F1 & F2).
  split. { intros s Hs. destruct (HA s Hs) as (v & ->). discriminate. }
  rewrite F1 in E1. injection E1 as <-. intros i. rewrite F2, N.bits_0. intuition discriminate.
Qed.
Lemma own_flags_run own : (forall name, In name CAPABILITIES -> RspFlags_from_str name <> None) ->
  flags_named RspFlags_from_str CAPABILITIES own -> config_to_capabilities_msg = Ok (mkCapabilities 12 own).
Proof.
  intros HA FN. unfold config_to_capabilities_msg.
  destruct (flags_ok RspFlags_from_str RspParseCapability CAPABILITIES 0) as (f & F1 & F2).
  { intros s Hs. specialize (HA s Hs). destruct (RspFlags_from_str s); [eauto|congruence]. }
  rewrite F1. cbn [rmap]. do 2 f_equal. apply N.bits_inj. intros i. specialize (F2 i). specialize (FN i). rewrite N.bits_0 in F2.
  destruct (N.testbit f i), (N.testbit own i); intuition congruence.
Qed.

Lemma capabilities_sound s c size st' c' : t_wf (c_tr c) ->
  capabilities_handle_msg s req c = (Ok (size, st'), c') -> did slots rnd req (RspCapabilities s) c size st' c'.
Proof.
  intros W H. unfold capabilities_handle_msg in H. apply (reset_sound (RspCapabilities s)) in H; [|exact W|discriminate]. destruct H as [H|H]; [exact H|].
  apply bind_inv in H as ([] & c1 & H1 & H). apply lift_inv in H1 as [H1 ->]. change GetCapabilities_id with (id_of KGetCapabilities) in H1. apply expect_inv in H1.
  apply header_iff in H1 as [L (rest & E0)].
  apply bind_inv in H as (body & c1 & H1 & H). apply lift_inv in H1 as [H1 ->].
  rewrite E0 in H1. change ([version_of KGetCapabilities; code_of KGetCapabilities] ++ rest) with (0x11 :: 0xE1 :: rest)%N in H1.
  rewrite body_of_run in H1. injection H1 as <-.
  apply bind_inv in H as (gc & c1 & H1 & H). apply map_err_lift_inv in H1 as [H1 ->].
  apply C08_get_capabilities_parse in H1; [|rewrite E0 in Hreq; apply bytes_app in Hreq; tauto].
  destruct H1 as (bs & r & E2 & FB & ->).
  apply bind_inv in H as (u3 & c1 & H1 & H). apply c_extend_inv in H1; [|exact W]. destruct H1 as (R1 & W1 & G1).
  apply bind_inv in H as (own & c2 & H1 & H). apply lift_inv in H1 as [H1 ->]. apply own_flags_named in H1 as (CT & FA & FN).
  apply bind_inv in H as (n & c2 & H1 & H).
  eapply c_write_inv in H1; [|exact (C08_capabilities_write own)]. destruct H1 as (-> & L1 & ->). rewrite R1 in *.
  apply bind_inv in H as (o & c2 & H1 & H). apply c_prefix_inv in H1 as [-> ->].
  cbn [c_rsp] in H. rewrite firstn_app_exact in H by reflexivity.
  apply bind_inv in H as (u4 & c2 & H1 & H). apply c_extend_inv in H1; [|exact W1]. destruct H1 as (R3 & W3 & G3).
  cbn [c_tr c_rsp] in R3, G3. injection H as <- <- <-. rewrite CT in *.
  eexists _, _. split; [eapply served_capabilities; [|exact FB|exact FA|exact FN|reflexivity]|].
  - exists r. rewrite E0, E2. reflexivity.
  - split; [reflexivity|]. split; [exact L1|]. split; [exact R3|]. split; [exact W3|]. rewrite G3, G1. now rewrite <- app_assoc.
Qed.

Lemma algorithms_sound s c size st' c' : t_wf (c_tr c) ->
  algorithms_handle_msg s req c = (Ok (size, st'), c') -> did slots rnd req (RspAlgorithms s) c size st' c'.
Proof.
  intros W H. unfold algorithms_handle_msg in H. apply (reset_sound (RspAlgorithms s)) in H; [|exact W|discriminate]. destruct H as [H|H]; [exact H|].
  apply bind_inv in H as ([] & c1 & H1 & H). apply lift_inv in H1 as [H1 ->]. change NegotiateAlgorithms_id with (id_of KNegotiate) in H1. apply expect_inv in H1.
  apply header_iff in H1 as [L (rest & E0)].
  apply bind_inv in H as (body & c1 & H1 & H). apply lift_inv in H1 as [H1 ->].
  rewrite E0 in H1. change ([version_of KNegotiate; code_of KNegotiate] ++ rest) with (0x11 :: 0xE3 :: rest)%N in H1.
  rewrite body_of_run in H1. injection H1 as <-.
  apply bind_inv in H as (na & c1 & H1 & H). apply map_err_lift_inv in H1 as [H1 ->].
  apply C09_negotiate_parse in H1; [|rewrite E0 in Hreq; apply bytes_app in Hreq; tauto].
  destruct H1 as (bs & r & E2 & FB).
  apply bind_inv in H as (u3 & c1 & H1 & H). apply c_extend_inv in H1; [|exact W]. destruct H1 as (R1 & W1 & G1).
  apply bind_inv in H as (al & c2 & H1 & H). apply lift_inv in H1 as [H1 ->].
  destruct (@choose_spec cfg ResponderError bs na FB) as (es & _ & _ & [(al' & fs & C1 & C2 & _)|((p & C1) & _)]);
    rewrite C1 in H1; [|discriminate]. injection H1 as ->.
  pose proof C2 as (_ & _ & N1 & [N2 N3] & _).
  apply bind_inv in H as (n & c2 & H1 & H).
  eapply c_write_inv in H1; [|exact (proj1 (C10_algorithms_write al fs _ N1 N3))]. destruct H1 as (-> & L1 & ->). rewrite R1 in *.
  apply bind_inv in H as (o & c2 & H1 & H). apply c_prefix_inv in H1 as [-> ->].
  cbn [c_rsp] in H. rewrite firstn_app_exact in H by reflexivity.
  apply bind_inv in H as (u4 & c2 & H1 & H). apply c_extend_inv in H1; [|exact W1]. destruct H1 as (R3 & W3 & G3).
  cbn [c_tr c_rsp] in R3, G3. injection H as <- <- <-.
  eexists _, _. split; [eapply served_algorithms; [|exact FB|exact C2|reflexivity]|].
  - exists r. rewrite E0, E2. reflexivity.
  - split; [reflexivity|]. split; [exact L1|]. split; [exact R3|]. split; [exact W3|]. rewrite G3, G1. now rewrite <- app_assoc.
Qed.

Hypothesis Hslots : length slots = NUM_SLOTS.
Hypothesis H8 : NUM_SLOTS <= 8.
Hypothesis HC : hash_contract.

Let chains := map (option_map fs_chain) slots.
Lemma slot_none i : i < NUM_SLOTS -> slot_chain slots i = None -> nth_error chains i = Some None.
Proof.
  intros L H. unfold chains. rewrite nth_error_map. unfold slot_chain in H.
  destruct (nth_error slots i) as [[s|]|] eqn:E1; simpl; [discriminate|auto|].
  apply nth_error_None in E1. lia.
Qed.
Lemma digests_writes h mask : mask_of_slots slots mask -> Forall (chain_good h) chains ->
  writes_exactly (write_digests_msg (mkDigests mask (map (option_map (fun c => sha h (chain_bytes c))) chains)))
    (fun e => e = BufferFull) ([0x11; 0x01]%N ++ digests_layout NUM_SLOTS mask (slot_chain_digest h slots)).
Proof.
  intros [B MK] HF.
  set (m := mkDigests mask _).
  assert (S1 : forall i c, slot_chain slots i = Some c -> nth_error (d_digests m) i = Some (Some (sha h (chain_bytes c))) /\
                chain_good h (Some c)).
  { intros i c H. apply slot_chain_map in H. unfold m; simpl. rewrite nth_error_map. unfold chains. rewrite H. split; [reflexivity|].
    rewrite Forall_forall in HF. apply (HF (Some c)). eapply nth_error_In; eauto. }
  assert (S2 : forall i, i < NUM_SLOTS -> slot_chain slots i = None -> nth_error (d_digests m) i = Some None).
  { intros i L H. unfold m; simpl. rewrite nth_error_map, slot_none by auto. reflexivity. }
  assert (OK : digests_ok NUM_SLOTS (hash_len h) m).
  { split; [unfold m, chains; simpl; now rewrite !map_length|]. intros i L. change (d_slot_mask m) with mask. split; intros H.
    - apply MK in H as (c & H). destruct (S1 i c H) as [E1 [_ (_ & S & _)]]. eexists. split; [exact E1|]. apply HC; auto.
    - destruct (slot_chain slots i) as [c|] eqn:E1; [|auto]. assert (slot_in_mask mask i = true) by (apply MK; eauto). congruence. }
  pose proof (C11_digests_write m (hash_len h) H8 B OK) as W.
  replace (digests_layout NUM_SLOTS mask (slot_chain_digest h slots)) with (digests_layout NUM_SLOTS (d_slot_mask m) (slot_digest m)); [exact W|].
  unfold digests_layout. change (d_slot_mask m) with mask. do 2 f_equal. f_equal. apply map_ext_in. intros i Hi.
  apply filter_In in Hi as [Hi Hm]. apply MK in Hm as (c & Hc). unfold slot_digest. destruct (S1 i c Hc) as [-> _].
  unfold slot_chain_digest, slot_chain_bytes. now rewrite Hc.
Qed.
Lemma chains_good h : Forall (chain_good h) chains <-> (forall i c, slot_chain slots i = Some c -> chain_fits c /\ hash_usable h).
Proof.
  rewrite Forall_forall. split.
  - intros H i c Hc. apply slot_chain_map in Hc. apply (H (Some c)). eapply nth_error_In; eauto.
  - intros H [c|] Hin; [|exact I]. apply In_nth_error in Hin as (i & Hi). apply (H i c). now apply slot_chain_map.
Qed.

Lemma digests_sound s c size st' c' : t_wf (c_tr c) -> parse_header GetDigests_id req = Ok true ->
  handle_get_digests s chains req c = (Ok (size, st'), c') -> did slots rnd req (RspIdAuth s) c size st' c'.
Proof.
  intros W HH H. change GetDigests_id with (id_of KGetDigests) in HH. apply header_iff in HH as [L SW].
  unfold handle_get_digests in H.
  apply bind_inv in H as (mask & c1 & H1 & H). apply lift_inv in H1 as [H1 ->].
  destruct (@mask_ok_chains cfg ResponderError slots ltac:(lia)) as (mask' & M1 & M2). fold chains in M1. rewrite M1 in H1. injection H1 as ->.
  apply bind_inv in H as (ds & c1 & H1 & H). apply lift_inv in H1 as [H1 ->].
  assert (LZ : length (repeat 0%N MAX_CERT_CHAIN_SIZE) = MAX_CERT_CHAIN_SIZE) by apply repeat_length.
  pose proof (hash_chains_inv _ _ HC _ _ LZ H1) as HF. rewrite (hash_chains_ok _ _ HC _ LZ HF) in H1. injection H1 as <-.
  apply bind_inv in H as (n & c2 & H1 & H).
  eapply c_write_inv in H1; [|exact (digests_writes _ _ M2 HF)]. destruct H1 as (-> & L1 & ->).
  apply bind_inv in H as (u3 & c1 & H1 & H). apply c_extend_inv in H1; [|exact W]. destruct H1 as (R1 & W1 & G1).
  cbn [c_rsp c_tr] in R1, G1.
  apply bind_inv in H as (o & c2 & H1 & H). apply c_prefix_inv in H1 as [-> ->].
  rewrite R1, firstn_app_exact in H by reflexivity.
  apply bind_inv in H as (u4 & c2 & H1 & H). apply c_extend_inv in H1; [|exact W1]. destruct H1 as (R3 & W3 & G3).
  rewrite R1 in R3. injection H as <- <- <-.
  eexists _, _. split; [eapply served_digests; [exact SW|exact L|exact M2| |reflexivity]|].
  - now apply chains_good.
  - split; [reflexivity|]. split; [exact L1|]. split; [exact R3|]. split; [exact W3|]. rewrite G3, G1. now rewrite <- app_assoc.
Qed.

Lemma certificate_sound s c size st' c' : t_wf (c_tr c) -> parse_header GetCertificate_id req = Ok true ->
  handle_get_certificate s chains req c = (Ok (size, st'), c') -> did slots rnd req (RspIdAuth s) c size st' c'.
Proof.
  intros W HH H. change GetCertificate_id with (id_of KGetCertificate) in HH. apply header_iff in HH as [L (rest & E0)].
  unfold handle_get_certificate in H.
  apply bind_inv in H as (body & c1 & H1 & H). apply lift_inv in H1 as [H1 ->].
  rewrite E0 in H1. change ([version_of KGetCertificate; code_of KGetCertificate] ++ rest) with (0x11 :: 0x82 :: rest)%N in H1.
  rewrite body_of_run in H1. injection H1 as <-.
  apply bind_inv in H as (gc & c1 & H1 & H). apply map_err_lift_inv in H1 as [H1 ->].
  apply C12_get_certificate_parse in H1; [|rewrite E0 in Hreq; apply bytes_app in Hreq; tauto].
  destruct H1 as (bs & r & E2 & B1 & B2 & ->).
  destruct (Nat.leb_spec NUM_SLOTS (N.to_nat (gcert_slot gc))) as [|LS]; [discriminate|].
  assert (LZ : length (repeat 0%N MAX_CERT_CHAIN_SIZE) = MAX_CERT_CHAIN_SIZE) by apply repeat_length.
  apply bind_inv in H as ([pl cc] & c1 & H1 & H). apply lift_inv in H1 as [H1 ->].
  assert (X : (forall ch, slot_chain slots (N.to_nat (gcert_slot gc)) = Some ch -> chain_fits ch) /\
              pl = N.of_nat (length (slot_chain_bytes slots (N.to_nat (gcert_slot gc)))) /\
              firstn (length (slot_chain_bytes slots (N.to_nat (gcert_slot gc)))) cc = slot_chain_bytes slots (N.to_nat (gcert_slot gc))).
  { unfold slot_chain_bytes. destruct (slot_chain slots (N.to_nat (gcert_slot gc))) as [ch|] eqn:E1.
    - apply slot_chain_map in E1. fold chains in E1. rewrite E1 in H1.
      destruct (chain_fits_dec ch) as [F|F].
      + rewrite chain_write_fits in H1 by auto. simpl in H1. injection H1 as <- <-.
        split; [congruence|]. split; [apply N.mod_small; apply F|]. now apply firstn_app_exact.
      + destruct (chain_write_unfit ch _ LZ F) as (e & b' & E3). rewrite E3 in H1. discriminate.
    - rewrite (slot_none _ LS E1) in H1. injection H1 as <- <-. split; [discriminate|]. auto. }
  destruct X as (X1 & -> & X3). clear H1.
  apply bind_inv in H as (n & c2 & H1 & H).
  eapply c_write_inv in H1; [|eapply (C12_certificate_write (mkCertificate _ _ _ _)); [exact X3|reflexivity]].
  destruct H1 as (-> & L1 & ->). cbn [cert_slot cert_remainder_length] in *.
  apply bind_inv in H as (u3 & c1 & H1 & H). apply c_extend_inv in H1; [|exact W]. destruct H1 as (R1 & W1 & G1).
  cbn [c_rsp c_tr] in R1, G1.
  apply bind_inv in H as (o & c2 & H1 & H). apply c_prefix_inv in H1 as [-> ->].
  rewrite R1, firstn_app_exact in H by reflexivity.
  apply bind_inv in H as (u4 & c2 & H1 & H). apply c_extend_inv in H1; [|exact W1]. destruct H1 as (R3 & W3 & G3).
  rewrite R1 in R3. injection H as <- <- <-.
  eexists _, _. split; [eapply served_certificate; [|exact B1|exact B2|exact LS|exact X1|reflexivity]|].
  - exists r. rewrite E0, E2. reflexivity.
  - split; [reflexivity|]. split; [exact L1|]. split; [exact R3|]. split; [exact W3|]. rewrite G3, G1. now rewrite <- app_assoc.
Qed.
Lemma id_auth_sound s c size st' c' : t_wf (c_tr c) ->
  id_auth_handle_msg s chains req c = (Ok (size, st'), c') -> did slots rnd req (RspIdAuth s) c size st' c'.
Proof.
  intros W H. unfold id_auth_handle_msg in H. apply (reset_sound (RspIdAuth s)) in H; [|exact W|discriminate]. destruct H as [H|H]; [exact H|].
  apply bind_inv in H as (b & c1 & H1 & H). apply map_err_lift_inv in H1 as [H1 ->]. destruct b.
  - now apply digests_sound.
  - apply bind_inv in H as ([] & c1 & H2 & H). apply lift_inv in H2 as [H2 ->].
    change GetCertificate_id with (id_of KGetCertificate) in H2. apply expect_inv in H2. now apply certificate_sound.
Qed.

(** * CHALLENGE *)
Lemma contains_bit a i : contains a (2 ^ i) = N.testbit a i.
Proof.
  unfold contains. apply eq_true_iff_eq. rewrite N.eqb_eq. split; intros H.
  - apply (f_equal (fun x => N.testbit x i)) in H. rewrite N.land_spec, N.pow2_bits_true, andb_true_r in H. exact H.
  - apply N.bits_inj. intros j. rewrite N.land_spec. destruct (N.eq_dec i j) as [<-|D].
    + rewrite N.pow2_bits_true, H. reflexivity.
    + rewrite N.pow2_bits_false by auto. apply andb_false_r.
Qed.
Lemma mutual_eq s : contains (ri_requester_cap s) ReqFlags_MUT_AUTH_CAP && contains (ri_responder_cap s) RspFlags_MUT_AUTH_CAP
  = both_mutual s.
Proof.
  change ReqFlags_MUT_AUTH_CAP with (2 ^ 8)%N. change RspFlags_MUT_AUTH_CAP with (2 ^ 8)%N. now rewrite !contains_bit.
Qed.
(** The message challenge.rs builds, before signing. *)
Definition auth_of (s : RspIdState) (slot mask : N) (ss : nat) : ChallengeAuth :=
  mkChallengeAuth slot mask (both_mutual s) (slot_chain_digest (al_base_hash (ri_algorithms s)) slots (N.to_nat slot))
    (nonce_new (rnd_nonce rnd)) (zeros (hash_len (al_base_hash (ri_algorithms s)))) [] (zeros ss).
Lemma auth_writes s slot mask ss filled : rnd_ok rnd -> mask_of_slots slots mask ->
  nth_error slots (N.to_nat slot) = Some (Some filled) -> sha2 (al_base_hash (ri_algorithms s)) ->
  writes_exactly (write_challenge_auth (auth_of s slot mask ss)) ca_error
    (unsigned_auth s slots slot mask (wire_nonce (rnd_nonce rnd)) ++ zeros ss).
Proof.
  intros [R1 R2] [B MK] Hn S.
  assert (LS : N.to_nat slot < NUM_SLOTS) by (rewrite <- Hslots; apply nth_error_Some; congruence).
  assert (V : ca_valid (hash_len (al_base_hash (ri_algorithms s))) ss (auth_of s slot mask ss)).
  { destruct (HC _ (slot_chain_bytes slots (N.to_nat slot)) S) as [D1 D2]. unfold auth_of, ca_valid, ca_fields_ok; cbn [ca_slot ca_slot_mask
      ca_cert_chain_hash ca_nonce ca_measurement_summary_hash ca_opaque_data ca_signature].
    refine (conj (conj _ (conj _ (conj _ (conj _ (conj _ (conj _ _)))))) (conj LS (conj _ (conj B (conj _ (conj _ (conj _ (conj _ _)))))))).
    - lia.
    - lia.
    - exact D1.
    - unfold nonce_ok, nonce_new. destruct feature_rand; auto.
    - apply repeat_length.
    - split; [constructor|]. simpl. split; lia.
    - apply repeat_length.
    - simpl. lia.
    - exact D2.
    - unfold nonce_new. destruct feature_rand; [exact R2|constructor].
    - apply bytes_zeros.
    - constructor.
    - apply bytes_zeros. }
  pose proof (C15_challenge_auth_write _ _ _ V) as Wr.
  replace (unsigned_auth s slots slot mask (wire_nonce (rnd_nonce rnd)) ++ zeros ss) with
    ([17%N; 3%N] ++ challenge_auth_layout (if ca_use_mutual_auth (auth_of s slot mask ss) then 0%N else ca_slot (auth_of s slot mask ss)) 0 false
            (ca_slot_mask (auth_of s slot mask ss)) (ca_cert_chain_hash (auth_of s slot mask ss)) (ca_nonce (auth_of s slot mask ss))
            (ca_measurement_summary_hash (auth_of s slot mask ss))
            (N.of_nat (length (opaque_bytes (ca_opaque_data (auth_of s slot mask ss)))))
            (ca_opaque_data (auth_of s slot mask ss)) (ca_signature (auth_of s slot mask ss))); [exact Wr|].
  unfold unsigned_auth, challenge_auth_layout, auth_of; cbn [ca_slot ca_slot_mask ca_use_mutual_auth
      ca_cert_chain_hash ca_nonce ca_measurement_summary_hash ca_opaque_data ca_signature].
  rewrite <- !app_assoc. reflexivity.
Qed.
Lemma challenge_sound s c size st' c' : t_wf (c_tr c) -> rnd_ok rnd ->
  challenge_handle_msg s slots rnd req c = (Ok (size, st'), c') -> did slots rnd req (RspChallenge s) c size st' c'.
Proof.
  intros W RK H. unfold challenge_handle_msg in H. apply (reset_sound (RspChallenge s)) in H; [|exact W|discriminate].
  destruct H as [H|H]; [exact H|].
  apply bind_inv in H as ([] & c1 & H1 & H). apply lift_inv in H1 as [H1 ->]. change Challenge_id with (id_of KChallenge) in H1. apply expect_inv in H1.
  apply header_iff in H1 as [L (rest & E0)].
  apply bind_inv in H as (ds & c1 & HD & H). apply lift_inv in HD as [HD ->].
  apply bind_inv in H as (ss & c1 & HS & H). apply lift_inv in HS as [HS ->]. apply sig_size_inv in HS as [HS1 HS2].
  apply bind_inv in H as (body & c1 & H1 & H). apply lift_inv in H1 as [H1 ->].
  rewrite E0 in H1. change ([version_of KChallenge; code_of KChallenge] ++ rest) with (0x11 :: 0x83 :: rest)%N in H1.
  rewrite body_of_run in H1. injection H1 as <-.
  apply bind_inv in H as (m & c1 & H1 & H). apply map_err_lift_inv in H1 as [H1 ->].
  apply C14_challenge_parse in H1; [|rewrite E0 in Hreq; apply bytes_app in Hreq; tauto].
  destruct H1 as (bs & r & E2 & NK & ->).
  apply bind_inv in H as (filled & c1 & H1 & H). apply lift_inv in H1 as [H1 ->].
  unfold slot_get in H1. destruct (nth_error slots (N.to_nat (ch_slot m))) as [[f|]|] eqn:EN; try discriminate. injection H1 as ->.
  apply bind_inv in H as (dg & c1 & H1 & H). apply lift_inv in H1 as [H1 ->].
  assert (LZ : length (repeat 0%N MAX_CERT_CHAIN_SIZE) = MAX_CERT_CHAIN_SIZE) by apply repeat_length.
  destruct (chain_fits_dec (fs_chain filled)) as [F|F].
  2: { destruct (chain_write_unfit (fs_chain filled) _ LZ F) as (e & b' & E3). rewrite E3 in H1. discriminate. }
  rewrite chain_write_fits in H1 by auto. cbn [rmap_err rbind] in H1. destruct (_ <? _); [discriminate|].
  rewrite firstn_app_exact in H1 by reflexivity. apply digest_inv in H1 as [U ->]; [|exact HC].
  pose proof U as (_ & S2 & LH).
  rewrite digest_size_of in HD by exact S2. unfold digest_size in HD.
  destruct (Nat.leb_spec (hash_len (al_base_hash (ri_algorithms s))) MAX_DIGEST_SIZE); [|lia]. injection HD as <-.
  apply bind_inv in H as (u3 & c1 & H1 & H). apply c_extend_inv in H1; [|exact W]. destruct H1 as (R1 & W1 & G1).
  apply bind_inv in H as (mask & c2 & H1 & H). apply lift_inv in H1 as [H1 ->].
  destruct (@mask_ok cfg ResponderError slots ltac:(lia)) as (mask' & M1 & M2). rewrite M1 in H1. injection H1 as ->.
  apply bind_inv in H as (auth & c2 & H1 & H). apply lift_inv in H1 as [H1 ->].
  unfold challenge_auth_new in H1.
  destruct (digest_size (length (sha _ _))) as [?|?|?]; try discriminate. cbn [rbind] in H1.
  destruct (digest_size (length (repeat _ _))) as [?|?|?]; try discriminate. cbn [rbind] in H1.
  destruct (signature_size _) as [?|?|?]; try discriminate. cbn [rbind] in H1. injection H1 as <-.
  rewrite mutual_eq in H.
  assert (EA : slot_chain_digest (al_base_hash (ri_algorithms s)) slots (N.to_nat (ch_slot m)) =
               sha (al_base_hash (ri_algorithms s)) (chain_bytes (fs_chain filled))).
  { unfold slot_chain_digest, slot_chain_bytes, slot_chain. now rewrite EN. }
  rewrite <- EA in H. fold (zeros (hash_len (al_base_hash (ri_algorithms s)))) in H. fold (zeros ss) in H.
  fold (auth_of s (ch_slot m) mask ss) in H.
  apply bind_inv in H as (n & c2 & H1 & H).
  eapply c_write_inv in H1; [|exact (auth_writes s _ mask ss _ RK M2 EN S2)].
  destruct H1 as (-> & L1 & ->). rewrite R1 in *. 
  remember (unsigned_auth s slots (ch_slot m) mask (wire_nonce (rnd_nonce rnd))) as ua eqn:EUA.
  assert (LA : length (ua ++ zeros ss) = length ua + ss) by (rewrite app_length; unfold zeros; now rewrite repeat_length).
  apply bind_inv in H as ([] & c2 & H1 & H).
  destruct (Nat.ltb_spec (length (ua ++ zeros ss)) ss); [lia|]. injection H1 as <-.
  replace (length (ua ++ zeros ss) - ss) with (length ua) in H by lia.
  apply bind_inv in H as (o & c2 & H1 & H). apply c_prefix_inv in H1 as [-> ->].
  cbn [c_rsp] in H. rewrite <- app_assoc, firstn_app_exact in H by reflexivity.
  apply bind_inv in H as (u4 & c2 & H1 & H). apply c_extend_inv in H1; [|exact W1]. destruct H1 as (R3 & W3 & G3).
  cbn [c_tr c_rsp] in R3, G3.
  apply bind_inv in H as (tr & c3 & H1 & H). unfold gets in H1. injection H1 as <- <-.
  apply bind_inv in H as (hh & c3 & H1 & H). apply lift_inv in H1 as [H1 ->]. apply digest_inv in H1 as [_ ->]; [|exact HC].
  apply bind_inv in H as (sg & c3 & H1 & H). apply map_err_lift_inv in H1 as [H1 ->].
  apply bind_inv in H as ([] & c3 & HX & H). unfold c_copy in HX.
  destruct (_ && _) eqn:EC in HX; [|discriminate]. injection HX as <-. injection H as <- <- <-.
  rewrite !andb_true_iff, Nat.eqb_eq, !Nat.leb_le in EC. destruct EC as [[C1 C2] C3].
  assert (LSG : length sg = ss) by lia.
  rewrite G3, G1 in H1. rewrite <- app_assoc in H1.
  exists (ua ++ sg), (t_get (c_tr c) ++ req ++ ua).
  split; [eapply served_challenge; [|exact NK|exact EN|exact F|exact U|exact HS1|exact HS2|exact M2|exact EUA|exact H1|exact LSG]|].
  - exists r. rewrite E0, E2. reflexivity.
  - assert (LB : length (ua ++ sg) = length (ua ++ zeros ss)) by (rewrite LA, app_length; lia).
    rewrite LB. split; [auto|]. split; [auto|]. split.
    + cbn [c_rsp]. rewrite R3, firstn_app_exact by reflexivity. rewrite <- app_assoc. do 2 f_equal.
      rewrite app_assoc, skipn_app_exact by reflexivity. reflexivity.
    + split; [exact W3|]. cbn [c_tr]. rewrite G3, G1. now rewrite <- app_assoc.
Qed.

Lemma dispatch_sound st c size st' c' : t_wf (c_tr c) -> rnd_ok rnd ->
  rsp_dispatch st slots rnd req c = (Ok (size, st'), c') -> did slots rnd req st c size st' c'.
Proof.
  intros W RK H. destruct st as [| |s|s|s|s]; simpl in H.
  - discriminate.
  - apply get_version_sound; auto. discriminate.
  - now apply capabilities_sound.
  - now apply algorithms_sound.
  - now apply id_auth_sound.
  - now apply challenge_sound.
Qed.

(** * Every specified exchange happens if there is room *)
Definition does st (c : Ctx) out st' log' : Prop :=
  exists c', rsp_dispatch st slots rnd req c = (Ok (length out, st'), c') /\
    c_rsp c' = out ++ skipn (length out) (c_rsp c) /\ t_wf (c_tr c') /\ t_get (c_tr c') = log'.
Lemma starts_len (p : list N) : starts_with p req -> length p <= length req.
Proof. intros (r & ->). rewrite app_length. lia. Qed.
(** write, log the request, log the response: in either order *)
Lemma header_true k : 2 < length req -> starts_with [version_of k; code_of k] req -> parse_header (id_of k) req = Ok true.
Proof. intros L S. now apply header_iff. Qed.
Lemma not_reset k rest c : 2 < length req -> starts_with [version_of k; code_of k] req -> code_of k <> 0x84%N ->
  reset_on_get_version req rest c = rest c.
Proof.
  intros L (r & E1) D. unfold reset_on_get_version. change GetVersion_id with (id_of KGetVersion).
  rewrite (proj2 (header_false KGetVersion req)); [reflexivity|]. split; [auto|]. rewrite E1. simpl. congruence.
Qed.
Lemma expect_true k c : 2 < length req -> starts_with [version_of k; code_of k] req ->
  @lift Ctx _ _ (rsp_expect (id_of k) req) c = (Ok tt, c).
Proof. intros L S. unfold rsp_expect. rewrite header_true by auto. reflexivity. Qed.
Lemma starts_trans (p q : list N) : starts_with (p ++ q) req -> starts_with p req.
Proof. intros (r & E1). exists (q ++ r). now rewrite app_assoc. Qed.
Lemma body_run {A} (k : list N -> H A) a b rest c : req = [a; b] ++ rest ->
  bind (lift (body_of req)) k c = k rest c.
Proof. intros ->. reflexivity. Qed.
Lemma parse_run {E F A B} (parse : list N -> res E A) fmt (f : E -> F) (k : A -> M Ctx F B) a b bs rest m c :
  req = ([a; b] ++ bs) ++ rest -> parses_exactly parse fmt -> fmt bs m ->
  bind (map_err f (lift (parse (bs ++ rest)))) k c = k m c.
Proof.
  intros E1 P FM. apply bind_run, map_err_lift_run. apply P; [|eauto]. rewrite E1, <- app_assoc in Hreq. apply bytes_app in Hreq. tauto.
Qed.

Lemma get_version_complete st c : t_wf (c_tr c) -> st <> RspError -> starts_with get_version_bytes req ->
  length version_reply <= length (c_rsp c) -> length (req ++ version_reply) <= TRANSCRIPT_SIZE ->
  does st c version_reply (RspCapabilities (mkRspCap None None None None)) (req ++ version_reply).
Proof.
  intros W S SW L1 L2. pose proof (starts_len _ SW) as L. cbn [length get_version_bytes] in L.
  assert (SH : starts_with [version_of KGetVersion; code_of KGetVersion] req) by exact (starts_trans [0x10; 0x84]%N [0;0]%N SW).
  assert (HH : parse_header GetVersion_id req = Ok true) by (apply (header_true KGetVersion); [lia|auto]).
  assert (X : exists c', version_handle_msg req c = (Ok (length version_reply, RspCapabilities (mkRspCap None None None None)), c') /\
      c_rsp c' = version_reply ++ skipn (length version_reply) (c_rsp c) /\ t_wf (c_tr c') /\ t_get (c_tr c') = req ++ version_reply).
  { unfold version_handle_msg. rewrite HH. unfold handle_get_version.
    destruct SW as (r & E1). change get_version_bytes with ([0x10; 0x84] ++ [0; 0])%N in E1.
    rewrite (body_run _ 0x10%N 0x84%N ([0; 0]%N ++ r)) by (rewrite E1; reflexivity).
    rewrite (parse_run _ _ _ _ _ _ [0; 0]%N r tt _ E1 C07_get_version_parse) by reflexivity.
    rewrite (bind_run c_clear _ c tt (mkCtx (c_rsp c) (t_clear (c_tr c)))) by reflexivity.
    destruct (t_clear_spec (c_tr c) W) as (W1 & G1 & _). rewrite app_length in L2.
    destruct (c_extend_run req (mkCtx (c_rsp c) (t_clear (c_tr c))) W1) as (t1 & X1 & W2 & G2).
    { cbn [c_tr]. rewrite G1. cbn [length]. lia. }
    rewrite (bind_run _ _ _ _ _ X1). cbn [c_rsp c_tr] in *. rewrite G1 in G2. cbn [app] in G2.
    rewrite (bind_run _ _ _ _ _ (c_write_run rsp_of_full _ _ _ (mkCtx (c_rsp c) t1) version_default_writes L1)). cbn [c_rsp c_tr].
    rewrite (bind_run _ _ _ _ _ (c_prefix_run (length version_reply) (mkCtx (version_reply ++ skipn (length version_reply) (c_rsp c)) t1)
              ltac:(cbn [c_rsp]; rewrite app_length; lia))).
    cbn [c_rsp]. rewrite firstn_app_exact by reflexivity.
    destruct (c_extend_run version_reply (mkCtx (version_reply ++ skipn (length version_reply) (c_rsp c)) t1) W2) as (t2 & X2 & W3 & G3).
    { cbn [c_tr]. rewrite G2. lia. }
    rewrite (bind_run _ _ _ _ _ X2). cbn [c_rsp c_tr] in *.
    eexists. split; [reflexivity|]. cbn [c_rsp c_tr]. split; [reflexivity|]. split; [exact W3|]. now rewrite G3, G2. }
  destruct X as (c' & X & Y). exists c'. split; [|exact Y].
  destruct st; simpl; [congruence|exact X|..]; unfold capabilities_handle_msg, algorithms_handle_msg, id_auth_handle_msg, challenge_handle_msg,
    reset_on_get_version; rewrite HH; exact X.
Qed.
(** The common tail, response logged after the request. *)
Lemma tail_run {E} (from : E -> ResponderError) wr FF out (st' : RspStates) c :
  t_wf (c_tr c) -> writes_exactly wr FF out -> length out <= length (c_rsp c) ->
  length (t_get (c_tr c) ++ out) <= TRANSCRIPT_SIZE ->
  exists c', (size <- c_write from wr ;; o <- c_prefix size ;; c_extend o ;;; ret (size, st')) c = (Ok (length out, st'), c') /\
    c_rsp c' = out ++ skipn (length out) (c_rsp c) /\ t_wf (c_tr c') /\ t_get (c_tr c') = t_get (c_tr c) ++ out.
Proof.
  intros W WR L1 L2. rewrite app_length in L2.
  rewrite (bind_run _ _ _ _ _ (c_write_run from _ _ _ c WR L1)).
  rewrite (bind_run _ _ _ _ _ (c_prefix_run (length out) (mkCtx (out ++ skipn (length out) (c_rsp c)) (c_tr c))
            ltac:(cbn [c_rsp]; rewrite app_length; lia))).
  cbn [c_rsp]. rewrite firstn_app_exact by reflexivity.
  destruct (c_extend_run out (mkCtx (out ++ skipn (length out) (c_rsp c)) (c_tr c)) W) as (t2 & X2 & W3 & G3).
  { cbn [c_tr]. lia. }
  rewrite (bind_run _ _ _ _ _ X2). eexists. split; [reflexivity|]. cbn [c_rsp c_tr]. auto.
Qed.
(** ... or written first, then both logged. *)
Lemma tail_run' {E} (from : E -> ResponderError) wr FF out (st' : RspStates) c :
  t_wf (c_tr c) -> writes_exactly wr FF out -> length out <= length (c_rsp c) ->
  length (t_get (c_tr c) ++ req ++ out) <= TRANSCRIPT_SIZE ->
  exists c', (size <- c_write from wr ;; c_extend req ;;; o <- c_prefix size ;; c_extend o ;;; ret (size, st')) c = (Ok (length out, st'), c') /\
    c_rsp c' = out ++ skipn (length out) (c_rsp c) /\ t_wf (c_tr c') /\ t_get (c_tr c') = t_get (c_tr c) ++ req ++ out.
Proof.
  intros W WR L1 L2. rewrite !app_length in L2.
  rewrite (bind_run _ _ _ _ _ (c_write_run from _ _ _ c WR L1)).
  destruct (c_extend_run req (mkCtx (out ++ skipn (length out) (c_rsp c)) (c_tr c)) W) as (t1 & X1 & W2 & G2).
  { cbn [c_tr]. lia. }
  rewrite (bind_run _ _ _ _ _ X1). cbn [c_rsp c_tr] in *.
  rewrite (bind_run _ _ _ _ _ (c_prefix_run (length out) (mkCtx (out ++ skipn (length out) (c_rsp c)) t1)
            ltac:(cbn [c_rsp]; rewrite app_length; lia))).
  cbn [c_rsp]. rewrite firstn_app_exact by reflexivity.
  destruct (c_extend_run out (mkCtx (out ++ skipn (length out) (c_rsp c)) t1) W2) as (t2 & X2 & W3 & G3).
  { cbn [c_tr]. rewrite G2, app_length. lia. }
  rewrite (bind_run _ _ _ _ _ X2). eexists. split; [reflexivity|]. cbn [c_rsp c_tr] in *. split; [auto|]. split; [auto|].
  now rewrite G3, G2, <- app_assoc.
Qed.

Lemma selected_nonempty c : overflow_checks = true -> selected 0 c -> False.
Proof. intros OC [(i & B & _)|(O & _)]; [rewrite N.bits_0 in B; discriminate|congruence]. Qed.
Lemma chosen_not_empty na al es fs : overflow_checks = true -> algorithms_chosen na al es fs -> ~ empty_offer na es.
Proof.
  intros OC (_ & _ & _ & _ & F2 & _ & S1 & _ & S2) [E0|[E0|E0]].
  - rewrite E0 in S1. eapply selected_nonempty; eauto.
  - rewrite E0 in S2. eapply selected_nonempty; eauto.
  - clear -OC F2 E0. induction F2 as [|a b es fs [_ S1] _ IH]; inversion E0 as [? ? E1|? ? E1]; subst; auto.
    red in E1. rewrite E1 in S1. eapply selected_nonempty; eauto.
Qed.
Lemma alg_array_unique l es es' : length es = length es' -> alg_array l es -> alg_array l es' -> es = es'.
Proof.
  intros L [_ E1] [_ E2]. rewrite E1 in E2. apply (f_equal (firstn (length es))) in E2. rewrite firstn_app_exact in E2 by auto.
  rewrite L in E2. now rewrite firstn_app_exact in E2 by auto.
Qed.
Lemma chosen_run {E} body na al es fs : negotiate_fmt body na -> algorithms_chosen na al es fs ->
  @choose_algorithms cfg E na = Ok al.
Proof.
  intros FM CH. destruct (@choose_spec cfg E body na FM) as (es' & N1 & A1 & [(al' & fs' & C1 & C2 & _)|((p & C1) & EO & OC)]).
  - rewrite C1. f_equal. symmetry. eapply chosen_unique; eauto.
  - exfalso. pose proof CH as (N2 & A2 & _). assert (es = es') as <- by (eapply alg_array_unique; eauto; lia).
    eapply chosen_not_empty; eauto.
Qed.

Lemma dispatch_complete st c out st' log' : t_wf (c_tr c) -> rnd_ok rnd ->
  served slots rnd req st (t_get (c_tr c)) out st' log' -> length out <= length (c_rsp c) -> length log' <= TRANSCRIPT_SIZE ->
  does st c out st' log'.
Proof.
  intros W RK SV L1 L2. remember (t_get (c_tr c)) as log eqn:EL. destruct SV.
  - apply get_version_complete; auto.
  - (* capabilities *)
    rename H into SW. destruct SW as (r & E1).
    assert (L : 2 < length req) by (rewrite E1; unfold capabilities_layout; rewrite !app_length; simpl; lia).
    assert (SH : starts_with [version_of KGetCapabilities; code_of KGetCapabilities] req).
    { exists (capabilities_layout ct flags ++ r). rewrite E1. reflexivity. }
    unfold does; cbn [rsp_dispatch]. unfold capabilities_handle_msg. rewrite (not_reset KGetCapabilities) by (auto; discriminate).
    change GetCapabilities_id with (id_of KGetCapabilities). rewrite (bind_run _ _ _ _ _ (expect_true KGetCapabilities c L SH)).
    rewrite (body_run _ 0x11%N 0xE1%N (capabilities_layout ct flags ++ r)) by (rewrite E1; now rewrite <- app_assoc).
    rewrite (parse_run _ _ _ _ _ _ _ r (mkGetCapabilities ct flags) _ E1 C08_get_capabilities_parse) by (split; [assumption|reflexivity]).
    rewrite !app_length in L2. 
    destruct (c_extend_run req c W) as (t1 & X1 & W1 & G1); [rewrite <- EL; lia|].
    rewrite (bind_run _ _ _ _ _ X1).
    rewrite (bind_run _ _ _ (mkCapabilities 12 own) _ (lift_run _ _ _ (own_flags_run own H1 H2))).
    cbn [gc_ct_exponent gc_flags cap_ct_exponent cap_flags].
    destruct (tail_run rsp_of_full _ _ out (RspAlgorithms (mkRspAlg ct flags 12 own None)) (mkCtx (c_rsp c) t1)
       W1 ltac:(rewrite H3; exact (C08_capabilities_write (mkCapabilities 12 own)))) as (c' & T1 & T2 & T3 & T4).
    { exact L1. }
    { cbn [c_tr]. rewrite G1, <- EL, !app_length. lia. }
    cbn [c_rsp c_tr] in *. exists c'. split; [|split; [exact T2|split; [exact T3|]]].
    + etransitivity; [|exact T1]. reflexivity.
    + rewrite T4, G1, <- EL, <- app_assoc. reflexivity.
  - (* algorithms *)
    rename H into SW. destruct SW as (r & E1).
    assert (L : 2 < length req).
    { rewrite E1. destruct H0 as (len & ea & eh & t & X). destruct X as (_ & _ & _ & _ & _ & _ & _ & _ & _ & ->).
      unfold negotiate_layout; rewrite !app_length; simpl; lia. }
    assert (SH : starts_with [version_of KNegotiate; code_of KNegotiate] req).
    { exists (body ++ r). rewrite E1. reflexivity. }
    unfold does; cbn [rsp_dispatch]. unfold algorithms_handle_msg. rewrite (not_reset KNegotiate) by (auto; discriminate).
    change NegotiateAlgorithms_id with (id_of KNegotiate). rewrite (bind_run _ _ _ _ _ (expect_true KNegotiate c L SH)).
    rewrite (body_run _ 0x11%N 0xE3%N (body ++ r)) by (rewrite E1; now rewrite <- app_assoc).
    rewrite (parse_run _ _ _ _ _ _ _ r na _ E1 C09_negotiate_parse) by assumption.
    rewrite !app_length in L2. 
    destruct (c_extend_run req c W) as (t1 & X1 & W1 & G1); [rewrite <- EL; lia|].
    rewrite (bind_run _ _ _ _ _ X1).
    rewrite (bind_run _ _ _ al _ (lift_run _ _ _ (chosen_run body na al es fs H0 H1))).
    pose proof H1 as (_ & _ & N1 & [N2 N3] & _).
    destruct (tail_run rsp_of_full _ _ out (RspIdAuth (mkRspId (ra_requester_ct s) (ra_requester_cap s) (ra_responder_ct s) (ra_responder_cap s) al)) (mkCtx (c_rsp c) t1)
       W1 ltac:(rewrite H2; exact (proj1 (C10_algorithms_write al fs _ N1 N3)))) as (c' & T1 & T2 & T3 & T4).
    { exact L1. }
    { cbn [c_tr]. rewrite G1, <- EL, !app_length. lia. }
    cbn [c_rsp c_tr] in *. exists c'. split; [|split; [exact T2|split; [exact T3|]]].
    + etransitivity; [|exact T1]. reflexivity.
    + rewrite T4, G1, <- EL, <- app_assoc. reflexivity.
  - (* digests *)
    rename H into SH. rename H0 into L.
    unfold does; cbn [rsp_dispatch]. unfold id_auth_handle_msg. rewrite (not_reset KGetDigests) by (auto; discriminate).
    rewrite (bind_run _ _ _ true c); [|apply map_err_lift_run; apply (header_true KGetDigests); auto].
    unfold handle_get_digests. fold chains.
    destruct (@mask_ok_chains cfg ResponderError slots ltac:(lia)) as (mask' & M1 & M2). fold chains in M1.
    assert (mask = mask') as <- by (eapply mask_unique; eauto).
    rewrite (bind_run _ _ _ _ _ (lift_run _ _ _ M1)).
    assert (LZ : length (repeat 0%N MAX_CERT_CHAIN_SIZE) = MAX_CERT_CHAIN_SIZE) by apply repeat_length.
    assert (HF : Forall (chain_good (al_base_hash (ri_algorithms s))) chains) by now apply chains_good.
    rewrite (bind_run _ _ _ _ _ (lift_run _ _ _ (hash_chains_ok _ _ HC _ LZ HF))).
    rewrite EL in L2 |- *.
    destruct (tail_run' rsp_of_full _ _ out (RspIdAuth s) c W
       ltac:(rewrite H3; exact (digests_writes _ _ M2 HF)) L1 L2) as (c' & T1 & T2 & T3 & T4).
    exists c'. auto.
  - (* certificate *)
    rename H into SW. destruct SW as (r & E1).
    assert (L : 2 < length req) by (rewrite E1; unfold get_certificate_layout; rewrite !app_length; simpl; lia).
    assert (SH : starts_with [version_of KGetCertificate; code_of KGetCertificate] req).
    { exists (get_certificate_layout slot off len ++ r). rewrite E1. reflexivity. }
    unfold does; cbn [rsp_dispatch]. unfold id_auth_handle_msg. rewrite (not_reset KGetCertificate) by (auto; discriminate).
    rewrite (bind_run _ _ _ false c).
    2: { apply map_err_lift_run. apply (proj2 (header_false KGetDigests req)). split; [auto|]. rewrite E1. discriminate. }
    change GetCertificate_id with (id_of KGetCertificate). rewrite (bind_run _ _ _ _ _ (expect_true KGetCertificate c L SH)).
    unfold handle_get_certificate.
    rewrite (body_run _ 0x11%N 0x82%N (get_certificate_layout slot off len ++ r)) by (rewrite E1; now rewrite <- app_assoc).
    rewrite (parse_run _ _ _ _ _ _ _ r (mkGetCertificate slot off len) _ E1 C12_get_certificate_parse)
      by (split; [assumption|split; [assumption|reflexivity]]).
    cbn [gcert_slot]. destruct (Nat.leb_spec NUM_SLOTS (N.to_nat slot)); [lia|].
    assert (LZ : length (repeat 0%N MAX_CERT_CHAIN_SIZE) = MAX_CERT_CHAIN_SIZE) by apply repeat_length.
    fold chains.
    assert (X : exists cc, firstn (length (slot_chain_bytes slots (N.to_nat slot))) cc = slot_chain_bytes slots (N.to_nat slot) /\
      (match nth_error chains (N.to_nat slot) with
          | None => Panic PIndex
          | Some None => Ok (0%N, repeat 0%N MAX_CERT_CHAIN_SIZE)
          | Some (Some c) =>
            let '(w, buf) := chain_write_to (repeat 0%N MAX_CERT_CHAIN_SIZE) c in
            rbind (rmap_err RspWriteCertChain w) (fun n => Ok ((N.of_nat n mod 65536)%N, buf))
       end) = Ok (N.of_nat (length (slot_chain_bytes slots (N.to_nat slot))), cc)).
    { unfold slot_chain_bytes. destruct (slot_chain slots (N.to_nat slot)) as [ch|] eqn:E3.
      - pose proof E3 as E4. apply slot_chain_map in E4. fold chains in E4. rewrite E4.
        pose proof (H3 ch eq_refl) as F. rewrite chain_write_fits by auto. cbn [rmap_err rbind].
        eexists. split; [|rewrite N.mod_small by apply F; reflexivity]. now apply firstn_app_exact.
      - rewrite (slot_none _ H2 E3). eexists. split; reflexivity. }
    destruct X as (cc & X1 & X2). rewrite (bind_run _ _ _ _ _ (lift_run _ _ _ X2)). cbv beta iota.
    rewrite EL in L2 |- *.
    destruct (tail_run' rsp_of_full _ _ out (RspChallenge s) c W
       ltac:(rewrite H4; exact (C12_certificate_write (mkCertificate slot (N.of_nat (length (slot_chain_bytes slots (N.to_nat slot)))) 0 cc) _ X1 eq_refl)) L1 L2) as (c' & T1 & T2 & T3 & T4).
    exists c'. auto.
  - (* challenge *)
    rename H into SW. destruct SW as (r & E1). rename H0 into NK. rename H1 into EN. rename H2 into F. rename H3 into U.
    rename H4 into HS1. rename H5 into HS2. rename H6 into M2. rename H7 into EU. rename H9 into SG. rename H10 into LSG.
    assert (L : 2 < length req) by (rewrite E1; unfold challenge_layout; rewrite !app_length; simpl; lia).
    assert (SH : starts_with [version_of KChallenge; code_of KChallenge] req).
    { exists (challenge_layout slot t nonce ++ r). rewrite E1. reflexivity. }
    unfold does; cbn [rsp_dispatch]. unfold challenge_handle_msg. rewrite (not_reset KChallenge) by (auto; discriminate).
    change Challenge_id with (id_of KChallenge). rewrite (bind_run _ _ _ _ _ (expect_true KChallenge c L SH)).
    pose proof U as (_ & S2 & LH).
    rewrite (bind_run _ _ _ (hash_len (al_base_hash (ri_algorithms s))) c).
    2: { apply lift_run. rewrite digest_size_of by auto. unfold digest_size. destruct (Nat.leb_spec (hash_len (al_base_hash (ri_algorithms s))) MAX_DIGEST_SIZE); [auto|lia]. }
    rewrite (bind_run _ _ _ ss c).
    2: { apply lift_run. rewrite (sig_size_of _ _ HS1). unfold signature_size. destruct (Nat.leb_spec ss MAX_SIGNATURE_SIZE); [auto|lia]. }
    rewrite (body_run _ 0x11%N 0x83%N (challenge_layout slot t nonce ++ r)) by (rewrite E1; now rewrite <- app_assoc).
    rewrite (parse_run _ _ _ _ _ _ _ r (mkChallenge slot t nonce) _ E1 C14_challenge_parse) by (split; [assumption|reflexivity]).
    cbn [ch_slot]. rewrite (bind_run _ _ _ filled c).
    2: { apply lift_run. unfold slot_get. rewrite EN. reflexivity. }
    assert (LZ : length (repeat 0%N MAX_CERT_CHAIN_SIZE) = MAX_CERT_CHAIN_SIZE) by apply repeat_length.
    rewrite chain_write_fits by auto.
    rewrite (bind_run _ _ _ (sha (al_base_hash (ri_algorithms s)) (chain_bytes (fs_chain filled))) c).
    2: { apply lift_run. cbn [rmap_err rbind]. rewrite app_length.
         destruct (Nat.ltb_spec (length (chain_bytes (fs_chain filled)) + length (skipn (length (chain_bytes (fs_chain filled))) (repeat 0%N MAX_CERT_CHAIN_SIZE)))
            (length (chain_bytes (fs_chain filled)))); [lia|]. rewrite firstn_app_exact by reflexivity. now apply digest_usable. }
    rewrite !app_length in L2.
    destruct (c_extend_run req c W) as (t1 & X1 & W1 & G1); [rewrite <- EL; lia|].
    rewrite (bind_run _ _ _ _ _ X1).
    destruct (@mask_ok cfg ResponderError slots ltac:(lia)) as (mask' & M1 & M2').
    assert (mask = mask') as <- by (eapply mask_unique; eauto).
    rewrite (bind_run _ _ _ _ _ (lift_run _ _ _ M1)).
    rewrite mutual_eq.
    assert (EA : slot_chain_digest (al_base_hash (ri_algorithms s)) slots (N.to_nat slot) =
               sha (al_base_hash (ri_algorithms s)) (chain_bytes (fs_chain filled))).
    { unfold slot_chain_digest, slot_chain_bytes, slot_chain. now rewrite EN. }
    rewrite (bind_run _ _ _ (auth_of s slot mask ss) (mkCtx (c_rsp c) t1)).
    2: { apply lift_run. unfold challenge_auth_new, digest_size, signature_size. rewrite (proj1 (HC _ _ S2)), !repeat_length.
         destruct (Nat.leb_spec (hash_len (al_base_hash (ri_algorithms s))) MAX_DIGEST_SIZE); [|lia].
         destruct (Nat.leb_spec ss MAX_SIGNATURE_SIZE); [|lia]. cbn [rbind]. unfold auth_of. rewrite EA. reflexivity. }
    pose proof (auth_writes s slot mask ss filled RK M2 EN S2) as WR. rewrite <- EU in WR.
    clear EU.
    assert (LA : length (out ++ zeros ss) = length out + ss) by (rewrite app_length; unfold zeros; now rewrite repeat_length).
    rewrite (bind_run _ _ _ _ _ (c_write_run RspWriteChallengeAuth _ _ _ (mkCtx (c_rsp c) t1) WR ltac:(cbn [c_rsp]; rewrite app_length in L1; lia))).
    destruct (Nat.ltb_spec (length (out ++ zeros ss)) ss); [lia|].
    rewrite (bind_run (ret tt) _ _ tt _ eq_refl).
    replace (length (out ++ zeros ss) - ss) with (length out) by lia.
    cbn [c_rsp c_tr].
    rewrite (bind_run _ _ _ _ _ (c_prefix_run (length out) (mkCtx ((out ++ zeros ss) ++ skipn (length (out ++ zeros ss)) (c_rsp c)) t1)
            ltac:(cbn [c_rsp]; rewrite !app_length; lia))).
    cbn [c_rsp]. rewrite <- app_assoc, firstn_app_exact by reflexivity. rewrite app_assoc.
    cbn [c_rsp c_tr] in *.
    destruct (c_extend_run out (mkCtx ((out ++ zeros ss) ++ skipn (length (out ++ zeros ss)) (c_rsp c)) t1) W1) as (t2 & X2 & W3 & G3).
    { cbn [c_tr]. rewrite G1, app_length, <- EL. lia. }
    rewrite (bind_run _ _ _ _ _ X2). cbn [c_rsp c_tr] in *.
    rewrite (bind_run (gets _) _ _ _ _ eq_refl). cbn [c_tr].
    assert (EG : t_get t2 = log ++ req ++ out) by (rewrite G3, G1, <- EL; now rewrite <- app_assoc).
    rewrite EG. rewrite (bind_run _ _ _ _ _ (lift_run _ _ _ (digest_usable _ _ HC U))).
    rewrite (bind_run _ _ _ _ _ (map_err_lift_run _ _ _ _ SG)).
    assert (LB : length (out ++ signature) = length (out ++ zeros ss)) by (rewrite LA, app_length; lia).
    eexists. split.
    + unfold bind at 1. unfold c_copy. cbn [c_rsp c_tr].
      replace ((length out <=? length (out ++ zeros ss)) && (length (out ++ zeros ss) <=? length ((out ++ zeros ss) ++ skipn (length (out ++ zeros ss)) (c_rsp c)))
        && (length signature =? length (out ++ zeros ss) - length out)) with true.
      2: { symmetry. rewrite !andb_true_iff, Nat.eqb_eq, !Nat.leb_le. rewrite (app_length (out ++ zeros ss)). lia. }
      unfold ret. rewrite LB. reflexivity.
    + cbn [c_rsp c_tr]. split; [|auto]. rewrite LB. rewrite <- app_assoc at 1. rewrite firstn_app_exact by reflexivity.
      rewrite skipn_app_exact by reflexivity. now rewrite app_assoc.
Qed.
End Step.
