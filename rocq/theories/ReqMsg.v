(** handle_msg of the requester: [accepted] is exactly what a successful call does. *)
From Verif Require Import Base BaseLemmas Config Encoding MsgCommon MsgVersion MsgCapabilities MsgAlgorithms MsgDigest
     MsgCertificates MsgChallenge MsgError Transcript Crypto Responder Requester SpecWire SpecMsgs SpecResponder SpecRequester
     FlagLemmas PropTools PropTranscript PropVersionCaps PropAlg PropCerts PropChal PropGeneric PropTables PropDer RspParts RspStep ReqStep.

#[local] Opaque chain_bytes.
#[local] Arguments Nat.leb : simpl never.

(** * Version selection *)
Lemma ve_gtb_number a b : version_entry_ok a -> version_entry_ok b ->
  ve_gtb a b = (version_number b <? version_number a)%N.
Proof.
  unfold version_entry_ok, ve_gtb, version_number. intros (A1 & A2 & A3 & A4) (B1 & B2 & B3 & B4). symmetry.
  destruct (N.compare_spec (ve_major a) (ve_major b)) as [E1|E1|E1];
    [|apply N.ltb_ge; nia|apply N.ltb_lt; nia].
  destruct (N.compare_spec (ve_minor a) (ve_minor b)) as [E2|E2|E2];
    [|apply N.ltb_ge; nia|apply N.ltb_lt; nia].
  destruct (N.compare_spec (ve_update a) (ve_update b)) as [E3|E3|E3];
    [|apply N.ltb_ge; nia|apply N.ltb_lt; nia].
  rewrite E1, E2, E3. apply eq_true_iff_eq. rewrite !N.ltb_lt. lia.
Qed.
Lemma ve_eqb_iff a b : ve_eqb a b = true <-> a = b.
Proof.
  unfold ve_eqb. rewrite !andb_true_iff, !N.eqb_eq. destruct a, b; simpl. split; [intros [[[-> ->] ->] ->]; auto|].
  intros [= -> -> -> ->]. auto.
Qed.
Lemma supported_iff e : existsb (ve_eqb e) supported_versions = true <-> In e supported_versions.
Proof.
  rewrite existsb_exists. split; [intros (x & Hx & E1); apply ve_eqb_iff in E1; now subst|]. intros H. exists e. split; [auto|now apply ve_eqb_iff].
Qed.
Definition pick (found e : VersionEntry) : VersionEntry :=
  if ve_gtb e found then if existsb (ve_eqb e) supported_versions then e else found else found.
Lemma find_max_fold {E} es : forall pre post found, 
  @find_max_loop E (length es) (length pre) (pre ++ es ++ post) supported_versions found = Ok (fold_left pick es found).
Proof.
  induction es as [|e es IH]; intros pre post found; [reflexivity|]. simpl find_max_loop.
  rewrite nth_error_app2, Nat.sub_diag by lia. simpl nth_error. change (pick found e) with (pick found e).
  specialize (IH (pre ++ [e]) post (pick found e)). rewrite app_length in IH. simpl in IH. rewrite Nat.add_1_r, <- app_assoc in IH. exact IH.
Qed.
Lemma fold_pick es : Forall version_entry_ok es -> forall found, version_entry_ok found ->
  let r := fold_left pick es found in
  version_entry_ok r /\ (version_number found <= version_number r)%N /\ (r = found \/ In r es /\ In r supported_versions) /\
  forall w, In w es -> In w supported_versions -> (version_number w <= version_number r)%N.
Proof.
  induction 1 as [|e es He _ IH]; intros found Hf; cbv zeta; simpl fold_left.
  - split; [auto|]. split; [lia|]. split; [auto|]. intros w [].
  - assert (P : version_entry_ok (pick found e) /\ (version_number found <= version_number (pick found e))%N /\
              (pick found e = found \/ pick found e = e /\ In e supported_versions) /\
              (In e supported_versions -> (version_number e <= version_number (pick found e))%N)).
    { unfold pick. rewrite ve_gtb_number by auto. destruct (N.ltb_spec (version_number found) (version_number e)).
      - destruct (existsb (ve_eqb e) supported_versions) eqn:EX.
        + apply supported_iff in EX. split; [auto|]. split; [lia|]. split; [auto|lia].
        + split; [auto|]. split; [lia|]. split; [auto|]. intros HI. apply supported_iff in HI. congruence.
      - split; [auto|]. split; [lia|]. split; [auto|lia]. }
    destruct P as (P1 & P2 & P3 & P4). destruct (IH _ P1) as (R1 & R2 & R3 & R4). split; [auto|]. split; [lia|]. split.
    + destruct R3 as [->|[R3 R3']]; [destruct P3 as [->|[-> P3]]; [left; auto|right; simpl; auto]|right; simpl; auto].
    + intros w [<-|Hw] HS; [specialize (P4 HS); lia|auto].
Qed.
Lemma find_max_spec {E} v es : version_has v es -> Forall version_entry_ok es ->
  (exists w, @find_max_matching_version E v = Ok (Some w) /\ highest_common es w) \/
  (@find_max_matching_version E v = Ok None /\ forall w, In w es -> ~ In w supported_versions).
Proof.
  intros (L & N1 & E1) F. unfold find_max_matching_version.
  change (firstn (N.to_nat (v_num_entries version_default)) (v_entries version_default)) with supported_versions.
  rewrite N1, Nat2N.id, E1.
  pose proof (@find_max_fold E es [] (repeat (mkVE 0 0 0 0) (2 - length es)) ve_default) as FF. cbn [app length] in FF. rewrite FF. cbn [rmap].
  destruct (fold_pick es F ve_default) as (R1 & R2 & R3 & R4). { repeat split; reflexivity. }
  cbv zeta in *. set (r := fold_left pick es ve_default) in *.
  assert (SN : forall w, In w supported_versions -> (4096 <= version_number w)%N).
  { intros w [<-|[<-|[]]]; vm_compute; discriminate. }
  destruct (ve_eqb r ve_default) eqn:EQ.
  - right. split; [reflexivity|]. intros w Hw HS. apply ve_eqb_iff in EQ. specialize (R4 w Hw HS). rewrite EQ in R4.
    specialize (SN w HS). change (version_number ve_default) with 0%N in R4. lia.
  - left. exists r. split; [reflexivity|]. destruct R3 as [R3|[R3 R3']].
    + rewrite R3 in EQ. discriminate.
    + split; [auto|]. split; auto.
Qed.
Lemma supported_number_inj v w : In v supported_versions -> In w supported_versions -> version_number v = version_number w -> v = w.
Proof. intros [<-|[<-|[]]] [<-|[<-|[]]] H; try reflexivity; vm_compute in H; discriminate. Qed.
Lemma highest_unique es v w : highest_common es v -> highest_common es w -> v = w.
Proof.
  intros (V1 & V2 & V3) (W1 & W2 & W3). apply supported_number_inj; auto. specialize (V3 _ W1 W2). specialize (W3 _ V1 V2). lia.
Qed.
Lemma version_has_unique es v w : version_has v es -> version_has w es -> v = w.
Proof. intros (_ & A1 & A2) (_ & B1 & B2). destruct v, w; simpl in *. congruence. Qed.

(** * Algorithm selection *)
Lemma picked_iff bits offer c : one_bit_of bits c -> ((N.land offer c =? 0)%N = false <-> picked_from offer c).
Proof.
  intros (i & _ & ->). split.
  - intros H. exists i. split; [|reflexivity]. destruct (N.testbit offer i) eqn:E; [auto|].
    apply N.eqb_neq in H. destruct H. apply N.bits_inj. intros j. rewrite N.land_spec, N.bits_0.
    destruct (N.eq_dec i j) as [<-|D]; [now rewrite E|rewrite N.pow2_bits_false by auto; apply andb_false_r].
  - intros (j & B & E). apply N.eqb_neq. intros Z. apply (f_equal (fun x => N.testbit x j)) in Z.
    rewrite E, N.land_spec, B, N.pow2_bits_true, N.bits_0 in Z. discriminate.
Qed.
Lemma ensure_loop_fold es rsp : forall pre post,
  ensure_response_loop (length es) (length pre) (pre ++ es ++ post) rsp =
  if existsb (same_type_disjoint rsp) es then Err ReqSelectedAlgorithmNotRequested else Ok tt.
Proof.
  induction es as [|e es IH]; intros pre post; [reflexivity|]. simpl ensure_response_loop.
  rewrite nth_error_app2, Nat.sub_diag by lia. simpl nth_error. cbn [existsb]. destruct (same_type_disjoint rsp e); [reflexivity|].
  specialize (IH (pre ++ [e]) post). rewrite app_length in IH. simpl in IH. rewrite Nat.add_1_r, <- app_assoc in IH. exact IH.
Qed.
Lemma ensure_responses_fold na es unused fs : na_num_requests na = N.of_nat (length es) -> na_requests na = es ++ unused -> forall pre post,
  ensure_responses (length fs) (length pre) na (pre ++ fs ++ post) =
  if existsb (fun f => existsb (same_type_disjoint f) es) fs then Err ReqSelectedAlgorithmNotRequested else Ok tt.
Proof.
  intros H1 H2. induction fs as [|f fs IH]; intros pre post; [reflexivity|]. simpl ensure_responses.
  rewrite nth_error_app2, Nat.sub_diag by lia. simpl nth_error. rewrite H1, Nat2N.id, H2.
  pose proof (ensure_loop_fold es f [] unused) as X. cbn [app length] in X. rewrite X. clear X. cbn [existsb].
  destruct (existsb (same_type_disjoint f) es); [reflexivity|]. cbn [rbind orb].
  specialize (IH (pre ++ [f]) post). rewrite app_length in IH. simpl in IH. rewrite Nat.add_1_r, <- app_assoc in IH. exact IH.
Qed.
Lemma disjoint_iff f e : alg_one_bit f ->
  (same_type_disjoint f e = false <-> (alg_struct_type e = alg_struct_type f -> picked_from (alg_struct_fixed e) (alg_struct_fixed f))).
Proof.
  intros OB. destruct f as [f|f|f|f], e as [e|e|e|e]; cbn [same_type_disjoint alg_struct_type alg_struct_fixed];
    try (split; [intros _ H; discriminate|reflexivity]); unfold alg_one_bit in OB; cbn [alg_struct_fixed] in OB;
    rewrite (picked_iff _ _ _ OB); split; auto.
Qed.
Lemma disjoint_all es fs : Forall alg_one_bit fs ->
  (existsb (fun f => existsb (same_type_disjoint f) es) fs = false <->
   forall e f, In e es -> In f fs -> alg_struct_type e = alg_struct_type f -> picked_from (alg_struct_fixed e) (alg_struct_fixed f)).
Proof.
  intros OB. rewrite Forall_forall in OB. split.
  - intros H e f He Hf. apply disjoint_iff; auto. destruct (same_type_disjoint f e) eqn:E1; [|auto].
    assert (X : existsb (fun f => existsb (same_type_disjoint f) es) fs = true); [|congruence].
    apply existsb_exists. exists f. split; [auto|]. apply existsb_exists. eauto.
  - intros H. destruct (existsb _ fs) eqn:E1; [|auto]. apply existsb_exists in E1 as (f & Hf & E1).
    apply existsb_exists in E1 as (e & He & E1). rewrite (proj2 (disjoint_iff f e (OB f Hf)) (H e f He Hf)) in E1. discriminate.
Qed.

Section ReqMsg.
Context {cfg : Config} {cr : Crypto}.

Lemma ensure_valid_spec s na es unused body al fs : qa_negotiate s = Some na ->
  na_num_requests na = N.of_nat (length es) -> na_requests na = es ++ unused ->
  algorithms_fmt body al -> al_num_responses al = N.of_nat (length fs) -> alg_array (al_responses al) fs ->
  (ensure_valid_algorithms_selected s al = Ok tt <-> selection_ok na es al fs) /\
  (ensure_valid_algorithms_selected s al = Ok tt \/ ensure_valid_algorithms_selected s al = Err ReqSelectedAlgorithmNotRequested).
Proof.
  intros EQ N1 R1 (len & t & _ & _ & OBT & M1 & M2 & M3 & M4 & N3 & A3 & _) N2 A2.
  assert (fs = map fst t) as -> by (eapply alg_array_unique; eauto; rewrite map_length; lia).
  assert (OB : Forall alg_one_bit (map fst t)).
  { apply Forall_forall. intros x Hx. apply in_map_iff in Hx as (y & <- & Hy). rewrite Forall_forall in OBT. now apply OBT. }
  unfold ensure_valid_algorithms_selected. rewrite EQ. unfold selection_ok.
  rewrite <- (picked_iff _ _ _ M2), <- (picked_iff _ _ _ M3), <- (picked_iff _ _ _ M4), <- (disjoint_all es (map fst t) OB).
  destruct A2 as [_ A2]. rewrite A2, N2, Nat2N.id.
  pose proof (ensure_responses_fold na es unused (map fst t) N1 R1 [] (repeat (Dhe 0) (4 - length (map fst t)))) as X. cbn [app length] in X. rewrite X.
  destruct (N.eqb_spec (na_measurement_spec na) (al_measurement_spec al)) as [E1|E1]; cbn [negb].
  2: { split; [|auto]. split; [discriminate|]. intros (Y & _). congruence. }
  destruct (N.land (na_base_asym_algo na) (al_base_asym al) =? 0)%N.
  { split; [|auto]. split; [discriminate|]. intros (_ & Y & _). congruence. }
  destruct (N.land (na_base_hash_algo na) (al_base_hash al) =? 0)%N.
  { split; [|auto]. split; [discriminate|]. intros (_ & _ & Y & _). congruence. }
  destruct (N.land (na_base_hash_algo na) (al_measurement_hash al) =? 0)%N.
  { split; [|auto]. split; [discriminate|]. intros (_ & _ & _ & Y & _). congruence. }
  destruct (existsb _ (map fst t)).
  { split; [|auto]. split; [discriminate|]. intros (_ & _ & _ & _ & Y). congruence. }
  split; [|auto]. split; [|reflexivity]. intros _. auto.
Qed.
Lemma algorithms_fs body al : algorithms_fmt body al ->
  exists fs, al_num_responses al = N.of_nat (length fs) /\ alg_array (al_responses al) fs.
Proof.
  intros (len & t & _ & _ & _ & _ & _ & _ & _ & N3 & A3 & _). exists (map fst t). rewrite map_length. auto.
Qed.
(** Arrays in states: what the code indexes is there. *)
Definition st_ok (st : ReqStates) : Prop :=
  match st with
  | ReqAlgorithms s => forall na, qa_negotiate s = Some na ->
      exists es unused, na_num_requests na = N.of_nat (length es) /\ na_requests na = es ++ unused
  | ReqChallenge s => bytes (qh_cert_chain s) /\ N.to_nat (qh_cert_chain_size s) <= length (qh_cert_chain s) /\ (qh_cert_chain_size s < 65536)%N
  | _ => True
  end.

Lemma tr_extend_inv bs t u t' : t_wf t -> tr_extend bs t = (Ok u, t') ->
  t_wf t' /\ t_get t' = t_get t ++ bs.
Proof.
  intros W. unfold tr_extend, map_err. destruct (t_extend_spec t bs W) as [H1 H2].
  destruct (Nat.le_gt_cases (t_len t + length bs) TRANSCRIPT_SIZE) as [L|L].
  - destruct (H1 L) as (t1 & E1 & W' & G & _). rewrite E1. intros [= _ <-]. auto.
  - rewrite (H2 L). discriminate.
Qed.
Lemma tr_extend_run bs t : t_wf t -> length (t_get t ++ bs) <= TRANSCRIPT_SIZE ->
  exists t', tr_extend bs t = (Ok tt, t') /\ t_wf t' /\ t_get t' = t_get t ++ bs.
Proof.
  intros W L. rewrite app_length, t_get_length in L by auto. unfold tr_extend, map_err.
  destruct (proj1 (t_extend_spec t bs W) L) as (t' & -> & W' & G & _). exists t'. auto.
Qed.
Lemma req_expect_inv k rsp : req_expect (id_of k) rsp = Ok tt -> parse_header (id_of k) rsp = Ok true.
Proof.
  unfold req_expect. destruct (parse_header (id_of k) rsp) as [[]|e|p]; auto; try discriminate.
  destruct (nth_error rsp 0); discriminate.
Qed.
Lemma req_expect_run {St} k rsp (c : St) : 2 < length rsp -> starts_with [version_of k; code_of k] rsp ->
  @lift St _ _ (req_expect (id_of k) rsp) c = (Ok tt, c).
Proof. intros L S. unfold req_expect. rewrite (header_true rsp k) by auto. reflexivity. Qed.

Variable root rsp : list N.
Hypothesis Hrsp : bytes rsp.

(** Skip the header of an accepted message. *)
Ltac head H K E0 L := 
  apply bind_inv in H as ([] & ? & ?H1 & H);
  match goal with X : lift (req_expect ?i rsp) _ = _ |- _ => change i with (id_of K) in X; apply lift_inv in X as [X ->];
    apply req_expect_inv in X; apply header_iff in X as [L (?rest & E0)] end.

Lemma rest_bytes a b r : rsp = [a; b] ++ r -> bytes r.
Proof. intros E. rewrite E in Hrsp. now apply bytes_app in Hrsp. Qed.

Lemma version_accept_sound s t t' : t_wf t -> req_version_handle_msg rsp t = (Ok s, t') ->
  t_wf t' /\ accepted root rsp ReqVersion (t_get t) (ReqCapabilities s) (t_get t').
Proof.
  intros W H. unfold req_version_handle_msg in H. head H KVersion E0 L.
  apply bind_inv in H as (body & t1 & X & H). apply lift_inv in X as [X ->].
  rewrite E0 in X. change ([version_of KVersion; code_of KVersion] ++ rest) with (0x10 :: 0x04 :: rest)%N in X.
  rewrite body_of_run in X. injection X as <-.
  apply bind_inv in H as (v & t1 & X & H). apply map_err_lift_inv in X as [X ->].
  apply C07_version_parse in X; [|eapply rest_bytes; exact E0]. destruct X as (bs & r & E2 & es & VH & F & ->).
  apply bind_inv in H as (found & t1 & X & H). apply lift_inv in X as [X ->].
  destruct (@find_max_spec RequesterError v es VH F) as [(w & FM & HC)|[FM _]]; rewrite FM in X; injection X as <-; [|discriminate].
  apply bind_inv in H as (u & t1 & X & H). apply tr_extend_inv in X as [W1 G1]; [|exact W]. injection H as <- <-.
  split; [exact W1|]. rewrite G1. apply (accepted_version root rsp _ es w); [|exact F|apply VH|exact HC].
  exists r. rewrite E0, E2. reflexivity.
Qed.
Lemma capabilities_accept_sound s s' t t' : t_wf t -> req_cap_handle_msg s rsp t = (Ok s', t') ->
  t_wf t' /\ accepted root rsp (ReqCapabilities s) (t_get t) (ReqAlgorithms s') (t_get t').
Proof.
  intros W H. unfold req_cap_handle_msg in H. head H KCapabilities E0 L.
  apply bind_inv in H as (body & t1 & X & H). apply lift_inv in X as [X ->].
  rewrite E0 in X. change ([version_of KCapabilities; code_of KCapabilities] ++ rest) with (0x11 :: 0x61 :: rest)%N in X.
  rewrite body_of_run in X. injection X as <-.
  apply bind_inv in H as (m & t1 & X & H). apply map_err_lift_inv in X as [X ->].
  apply C08_capabilities_parse in X; [|eapply rest_bytes; exact E0]. destruct X as (bs & r & E2 & F & ->).
  apply bind_inv in H as (u & t1 & X & H). apply tr_extend_inv in X as [W1 G1]; [|exact W].
  apply lift_inv in H as [H ->]. unfold req_alg_from in H. cbn [qc_requester_ct qc_requester_cap qc_responder_ct qc_responder_cap qc_version] in H.
  destruct (qc_requester_ct s) as [oct|] eqn:Q1; [|discriminate]. destruct (qc_requester_cap s) as [own|] eqn:Q2; [|discriminate].
  injection H as <-. split; [exact W1|]. rewrite G1. eapply accepted_capabilities; [exact Q1|exact Q2| |exact F].
  exists r. rewrite E0, E2. reflexivity.
Qed.
Lemma both_contains i a b : contains a (2 ^ i) && contains b (2 ^ i) = both i a b.
Proof. unfold both. now rewrite !contains_bit. Qed.
Lemma algorithms_accept_sound s st' t t' : st_ok (ReqAlgorithms s) -> t_wf t ->
  req_dispatch (ReqAlgorithms s) root rsp t = (Ok st', t') ->
  t_wf t' /\ accepted root rsp (ReqAlgorithms s) (t_get t) st' (t_get t').
Proof.
  intros SO W H. cbn [req_dispatch] in H. apply bind_inv in H as (s1 & t1 & H1 & H). unfold req_alg_handle_msg in H1.
  head H1 KAlgorithms E0 L.
  apply bind_inv in H1 as (body & t2 & X & H1). apply lift_inv in X as [X ->].
  rewrite E0 in X. change ([version_of KAlgorithms; code_of KAlgorithms] ++ rest) with (0x11 :: 0x63 :: rest)%N in X.
  rewrite body_of_run in X. injection X as <-.
  apply bind_inv in H1 as (al & t2 & X & H1). apply map_err_lift_inv in X as [X ->].
  apply C10_algorithms_parse in X; [|eapply rest_bytes; exact E0]. destruct X as (bs & r & E2 & FM).
  apply bind_inv in H1 as ([] & t2 & X & H1). apply lift_inv in X as [X ->].
  apply bind_inv in H1 as (u & t2 & X2 & H1). apply tr_extend_inv in X2 as [W1 G1]; [|exact W]. injection H1 as <- <-.
  destruct (qa_negotiate s) as [na|] eqn:EN.
  2: { unfold ensure_valid_algorithms_selected in X. rewrite EN in X. discriminate. }
  destruct (SO na EN) as (es & unused & N1 & N2). destruct (algorithms_fs bs al FM) as (fs & N3 & A3).
  apply (ensure_valid_spec s na es unused bs al fs EN N1 N2 FM N3 A3) in X.
  cbn [qa_requester_cap qa_responder_cap] in H. change ReqFlags_CERT_CAP with (2 ^ cert_bit)%N in H. change RspFlags_CERT_CAP with (2 ^ cert_bit)%N in H.
  rewrite both_contains in H.
  assert (Y : t' = t2 /\ st' = (if both cert_bit (qa_requester_cap s) (qa_responder_cap s)
           then ReqIdAuth (mkReqId (qa_version s) (qa_requester_ct s) (qa_requester_cap s) (qa_responder_ct s)
                                   (qa_responder_cap s) al None None)
           else ReqNewSession)).
  { destruct (both cert_bit _ _); cbn in H; injection H as <- <-; auto. }
  destruct Y as [-> ->]. split; [exact W1|]. rewrite G1.
  eapply (accepted_algorithms root rsp s _ na es al fs bs); [exact EN|exact N1|exists unused; exact N2| |exact FM|exact N3|exact A3|exact X|reflexivity].
  exists r. rewrite E0, E2. reflexivity.
Qed.
Lemma digest_size_inv {E} h n : @get_digest_size cfg E h = Ok n -> known_hash h /\ n = hash_len h /\ n <= MAX_DIGEST_SIZE.
Proof.
  intros H. assert (K : known_hash h).
  { unfold get_digest_size, SHA_256, SHA_384, SHA_512, SHA3_256, SHA3_384, SHA3_512 in H. unfold known_hash; simpl.
    destruct (N.eqb_spec h 1); [subst; auto 10|]. destruct (N.eqb_spec h 8); [subst; auto 10|]. destruct (N.eqb_spec h 2); [subst; auto 10|].
    destruct (N.eqb_spec h 16); [subst; auto 10|]. destruct (N.eqb_spec h 4); [subst; auto 10|]. destruct (N.eqb_spec h 32); [subst; auto 10|]. discriminate. }
  split; [exact K|]. assert (X : @get_digest_size cfg E h = digest_size (hash_len h)).
  { unfold known_hash in K. simpl in K. destruct K as [<-|[<-|[<-|[<-|[<-|[<-|[]]]]]]]; reflexivity. }
  rewrite X in H. unfold digest_size in H. destruct (Nat.leb_spec (hash_len h) MAX_DIGEST_SIZE); [|discriminate]. injection H as <-. auto.
Qed.
Lemma digest_size_run {E} h : known_hash h -> hash_len h <= MAX_DIGEST_SIZE -> @get_digest_size cfg E h = Ok (hash_len h).
Proof.
  intros K L. assert (X : @get_digest_size cfg E h = digest_size (hash_len h)).
  { unfold known_hash in K. simpl in K. destruct K as [<-|[<-|[<-|[<-|[<-|[<-|[]]]]]]]; reflexivity. }
  rewrite X. unfold digest_size. destruct (Nat.leb_spec (hash_len h) MAX_DIGEST_SIZE); [auto|lia].
Qed.
Hypothesis HS : req_setting.

Lemma digests_accept_sound s s' t t' : qi_digests s = None -> t_wf t -> handle_digests s rsp t = (Ok s', t') ->
  t_wf t' /\ accepted root rsp (ReqIdAuth s) (t_get t) (ReqIdAuth s') (t_get t').
Proof.
  intros ED W H. unfold handle_digests in H. head H KDigests E0 L.
  apply bind_inv in H as (ds & t1 & X & H). apply lift_inv in X as [X ->]. apply digest_size_inv in X as (KH & -> & DL).
  apply bind_inv in H as (body & t1 & X & H). apply lift_inv in X as [X ->].
  rewrite E0 in X. change ([version_of KDigests; code_of KDigests] ++ rest) with (0x11 :: 0x01 :: rest)%N in X.
  rewrite body_of_run in X. injection X as <-.
  apply bind_inv in H as (d & t1 & X & H). apply map_err_lift_inv in X as [X ->].
  apply C11_digests_parse in X; [|apply HS|eapply rest_bytes; exact E0]. destruct X as (bs & r & E2 & F & ->).
  apply bind_inv in H as (u & t1 & X & H). apply tr_extend_inv in X as [W1 G1]; [|exact W]. injection H as <- <-.
  split; [exact W1|]. rewrite G1. eapply (accepted_digests root rsp s _ d); [exact ED|exact KH|exact DL|exact L| |exact F].
  exists r. rewrite E0, E2. reflexivity.
Qed.
Lemma certificate_accept_sound s st' t t' : qi_digests s <> None -> t_wf t ->
  req_dispatch (ReqIdAuth s) root rsp t = (Ok st', t') ->
  t_wf t' /\ accepted root rsp (ReqIdAuth s) (t_get t) st' (t_get t').
Proof.
  intros ED W H. cbn [req_dispatch] in H. destruct (qi_digests s) as [dg|] eqn:ED'; [|congruence].
  apply bind_inv in H as (s1 & t1 & H1 & H). unfold handle_certificate in H1.
  head H1 KCertificate E0 L.
  apply bind_inv in H1 as (body & t2 & X & H1). apply lift_inv in X as [X ->].
  rewrite E0 in X. change ([version_of KCertificate; code_of KCertificate] ++ rest) with (0x11 :: 0x02 :: rest)%N in X.
  rewrite body_of_run in X. injection X as <-.
  apply bind_inv in H1 as (c & t2 & X & H1). apply map_err_lift_inv in X as [X ->].
  apply C12_certificate_parse in X; [|eapply rest_bytes; exact E0]. destruct X as (bs & r & E2 & portion & CH & ->).
  apply bind_inv in H1 as (u & t2 & X2 & H1). apply tr_extend_inv in X2 as [W1 G1]; [|exact W]. injection H1 as <- <-.
  cbn [qi_requester_cap qi_responder_cap] in H. change ReqFlags_CHAL_CAP with (2 ^ chal_bit)%N in H. change RspFlags_CHAL_CAP with (2 ^ chal_bit)%N in H.
  rewrite both_contains in H. pose proof CH as (_ & _ & PL & _).
  assert (Y : t' = t2 /\ st' = (if both chal_bit (qi_requester_cap s) (qi_responder_cap s)
           then ReqChallenge (mkReqChal (qi_version s) (qi_requester_ct s) (qi_requester_cap s) (qi_responder_ct s)
                                        (qi_responder_cap s) (qi_algorithms s) (cert_slot c) (cert_chain c)
                                        (N.of_nat (length portion)) None)
           else ReqNewSession)).
  { rewrite <- PL. destruct (both chal_bit _ _); cbn in H; injection H as <- <-; auto. }
  destruct Y as [-> ->]. split; [exact W1|]. rewrite G1.
  eapply (accepted_certificate root rsp s _ c portion); [congruence| |exact CH|reflexivity].
  exists r. rewrite E0, E2. reflexivity.
Qed.

(** * CHALLENGE_AUTH *)
Lemma slot_bit_spec slot mask : N.to_nat slot <= 8 ->
  (overflow_checks = true -> (slot < 8)%N) ->
  exists b, @shl8 RequesterError overflow_checks 1 (N.to_nat slot) = Ok b /\
    ((N.land mask b =? 0)%N = false <-> N.testbit mask (slot mod 8) = true).
Proof.
  intros L OC. unfold shl8, shamt8.
  assert (X : forall k, (k < 8)%N -> (N.land mask (N.shiftl 1 k mod 256) =? 0)%N = false <-> N.testbit mask k = true).
  { intros k K. rewrite N.shiftl_1_l, N.mod_small.
    2: { change 256%N with (2 ^ 8)%N. apply N.pow_lt_mono_r; lia. }
    rewrite (picked_iff [k] mask (2 ^ k)). 2: { exists k. simpl. auto. }
    split; [intros (j & B & E); apply N.pow_inj_r in E; [now subst|lia]|intros; exists k; auto]. }
  destruct (Nat.ltb_spec (N.to_nat slot) 8) as [L8|L8].
  - exists (N.shiftl 1 (N.of_nat (N.to_nat slot)) mod 256)%N. split; [reflexivity|]. rewrite N2Nat.id, X by lia.
    rewrite N.mod_small by lia. tauto.
  - assert (slot = 8%N) as -> by lia. destruct overflow_checks; [specialize (OC eq_refl); lia|].
    change (N.to_nat 8) with 8. change (8 mod 8) with 0. exists (N.shiftl 1 (N.of_nat 0) mod 256)%N. split; [reflexivity|].
    change (8 mod 8)%N with 0%N. apply (X 0%N). lia.
Qed.
Lemma slot_bit_inv slot mask b : N.to_nat slot <= 8 ->
  @shl8 RequesterError overflow_checks 1 (N.to_nat slot) = Ok b -> (N.land mask b =? 0)%N = false ->
  N.testbit mask (slot mod 8) = true /\ (overflow_checks = true -> (slot < 8)%N).
Proof.
  intros L H1 H2. assert (OC : overflow_checks = true -> (slot < 8)%N).
  { intros OC. unfold shl8, shamt8 in H1. destruct (Nat.ltb_spec (N.to_nat slot) 8); [lia|]. rewrite OC in H1. discriminate. }
  split; [|exact OC]. destruct (slot_bit_spec slot mask L OC) as (b' & B1 & B2). rewrite B1 in H1. injection H1 as <-. now apply B2.
Qed.
Lemma list_eqb_iff a b : list_eqb a b = true <-> a = b.
Proof.
  revert b. induction a as [|x a IH]; intros [|y b]; simpl; try (split; [discriminate|discriminate]); [tauto|].
  rewrite andb_true_iff, N.eqb_eq, IH. split; [intros [-> ->]; auto|intros [= -> ->]; auto].
Qed.
Lemma even_half (sig : list N) k : length sig = 2 * k -> length sig / 2 = k.
Proof. intros ->. rewrite Nat.mul_comm. now apply Nat.div_mul. Qed.
Lemma sig_len_even a n : sig_len a = Some n -> exists k, n = 2 * k.
Proof.
  unfold sig_len. repeat match goal with |- context [if ?b then _ else _] => destruct b; [intros [= <-]|] end; try discriminate.
  - now exists 128. - now exists 192. - now exists 32. - now exists 256. - now exists 48. - now exists 66.
Qed.
Lemma webpki_inv {E} a b : @spdm_to_webpki E a = Ok b -> b = a /\ In a [0x10; 0x80]%N.
Proof.
  unfold spdm_to_webpki, ECDSA_ECC_NIST_P256, ECDSA_ECC_NIST_P384.
  destruct (N.eqb_spec a 16) as [->|]; [intros [= <-]; simpl; auto|]. destruct (N.eqb_spec a 128) as [->|]; [intros [= <-]; simpl; auto|discriminate].
Qed.
Lemma webpki_run {E} a : In a [0x10; 0x80]%N -> @spdm_to_webpki E a = Ok a.
Proof. intros [<-|[<-|[]]]; reflexivity. Qed.
Lemma verify_signature_spec {E} a leaf msg sig ss : provider = ProviderRing -> In a [0x10; 0x80]%N ->
  sig_len a = Some ss -> length sig = ss -> ss <= MAX_SIGNATURE_SIZE -> bytes sig ->
  (@verify_signature cfg cr E leaf a msg sig = Ok true <-> signature_verifies a leaf msg sig).
Proof.
  intros PR IA SL LS LM HB. destruct (sig_len_even a ss SL) as (k & EK). rewrite EK in LS. destruct HS as (_ & MS & _).
  assert (M2 : MAX_SIGNATURE_SIZE / 2 < 127) by (apply Nat.div_lt_upper_bound; lia).
  assert (M3 : (N.of_nat MAX_SIGNATURE_SIZE < 65000)%N) by lia.
  assert (M4 : length sig <= MAX_SIGNATURE_SIZE) by lia.
  assert (M5 : MAX_SIGNATURE_SIZE / 2 <> 127 /\ MAX_SIGNATURE_SIZE / 2 <> 255) by lia. destruct M5 as [M5 M6]. clear M2 MS.
  unfold verify_signature. rewrite PR, (webpki_run _ IA). cbn [rbind].
  destruct (N.eq_dec (be_val (firstn k sig)) 0) as [Z|Z]; [|destruct (N.eq_dec (be_val (skipn k sig)) 0) as [Z2|Z2]].
  1, 2: destruct (C43_zero_half_panics sig k (repeat 0%N max_encoded_size) LS ltac:(auto)) as (p & EP);
    destruct (bin_to_der sig (repeat 0%N max_encoded_size)) as [r0 o0]; cbn [fst] in EP; subst r0; split; [discriminate|];
    intros (k' & der & L' & Z1' & Z2' & _); assert (k' = k) as -> by lia; congruence.
  destruct (C43_bin_to_der sig k LS M4 M3 M5 M6 HB Z Z2) as (n & o & E1 & E2 & E3 & E4). rewrite E1.
  destruct (Nat.leb_spec n (length o)); [|lia]. split.
  - intros [= H1]. exists k, (firstn n o). auto.
  - intros (k' & der & L' & Z1' & Z2' & DS & OK). assert (k' = k) as -> by lia.
    rewrite <- (C43_der_canonical _ _ _ _ E4 DS) in OK. now rewrite OK.
Qed.

Lemma verify_chain_spec s h sig leaf0 m2 ss : provider = ProviderRing ->
  bytes (qh_cert_chain s) -> (qh_cert_chain_size s < 65536)%N ->
  sig_len (al_base_asym (qh_algorithms s)) = Some ss -> length sig = ss -> ss <= MAX_SIGNATURE_SIZE -> bytes sig ->
  leaf0 = firstn (N.to_nat (qh_cert_chain_size s)) (qh_cert_chain s) -> N.to_nat (qh_cert_chain_size s) <= length (qh_cert_chain s) ->
  (verify_cert_chain_and_signature s h m2 sig root UNIX_TIME = Ok tt <->
   In (al_base_asym (qh_algorithms s)) [0x10; 0x80]%N /\
   exists chain, chain_trusted root (al_base_asym (qh_algorithms s)) h leaf0 chain /\
     signature_verifies (al_base_asym (qh_algorithms s)) (cc_leaf_cert chain) m2 sig).
Proof.
  intros PR HB HN SL LS LM HBS EL LL. unfold verify_cert_chain_and_signature.
  destruct (Nat.ltb_spec (length (qh_cert_chain s)) (N.to_nat (qh_cert_chain_size s))); [lia|].
  rewrite <- EL. assert (BL : bytes leaf0) by (rewrite EL; now apply bytes_firstn).
  assert (LL0 : (N.of_nat (length leaf0) < 65536)%N) by (rewrite EL, firstn_length; lia).
  unfold new_end_entity_cert, verify_chain_of_trust. rewrite PR. split.
  - destruct (chain_parse leaf0 h) as [chain|e|p] eqn:EC; try discriminate. cbn [rmap_err rbind].
    apply C13_chain_parse in EC as (C1 & C2 & C3); [|exact BL].
    destruct (webpki_cert_ok (cc_leaf_cert chain)) eqn:K1; try discriminate. cbn [rmap_err rbind].
    destruct (webpki_anchor_ok root) eqn:K2; try discriminate.
    destruct (spdm_to_webpki (al_base_asym (qh_algorithms s))) as [a'|e|p] eqn:EW; try discriminate. cbn [rbind].
    apply webpki_inv in EW as [-> IA].
    destruct (webpki_chain_ok _ _ _ _ _) eqn:K3; try discriminate. cbn [rmap_err rbind].
    destruct (verify_signature _ _ _ _) as [[]|e|p] eqn:EV; try discriminate. intros _.
    split; [exact IA|]. exists chain. split; [split; [auto|]; auto|].
    eapply verify_signature_spec in EV; eauto.
  - intros (IA & chain & (C1 & C2 & K1 & K2 & K3) & SV).
    change (webpki_chain_ok (al_base_asym (qh_algorithms s)) (cc_leaf_cert chain) (cc_intermediates chain) root UNIX_TIME = true) in K3.
    rewrite (proj2 (C13_chain_parse h leaf0 chain BL)) by auto. cbn [rmap_err rbind]. rewrite K1. cbn [rmap_err rbind].
    rewrite K2, (webpki_run _ IA). cbn [rbind]. rewrite K3. cbn [rmap_err rbind].
    rewrite (proj2 (verify_signature_spec _ _ _ _ ss PR IA SL LS LM HBS) SV). reflexivity.
Qed.

Lemma ca_sig_suffix rsvd olen m r ss : rsp = ([0x11; 0x03]%N ++ ca_bytes rsvd olen m) ++ r -> length (ca_signature m) = ss ->
  bytes (ca_signature m) /\ ss <= length rsp.
Proof.
  intros E1 L. unfold ca_bytes, challenge_auth_layout in E1. split.
  - rewrite E1, !bytes_app in Hrsp. tauto.
  - rewrite E1, !app_length. lia.
Qed.

Lemma challenge_accept_sound s t t' : st_ok (ReqChallenge s) -> t_wf t -> req_chal_handle_msg s root rsp t = (Ok tt, t') ->
  t_wf t' /\ accepted root rsp (ReqChallenge s) (t_get t) ReqNewSession (t_get t').
Proof.
  intros (SB & SL & SN) W H. unfold req_chal_handle_msg in H. head H KChallengeAuth E0 L.
  apply bind_inv in H as (ds & t1 & HD & H). apply lift_inv in HD as [HD ->]. apply digest_size_inv in HD as (KH & -> & DL).
  apply bind_inv in H as (ss & t1 & HG & H). apply lift_inv in HG as [HG ->]. apply sig_size_inv in HG as [HS1 HS2].
  apply bind_inv in H as (body & t1 & X & H). apply lift_inv in X as [X ->].
  rewrite E0 in X. change ([version_of KChallengeAuth; code_of KChallengeAuth] ++ rest) with (0x11 :: 0x03 :: rest)%N in X.
  rewrite body_of_run in X. injection X as <-.
  apply bind_inv in H as (m & t1 & X & H). apply map_err_lift_inv in X as [X ->].
  apply C15_challenge_auth_parse in X; [|eapply rest_bytes; exact E0]. destruct X as (bs & r & E2 & rsvd & olen & RV & OL & FO & ->).
  destruct (N.eqb_spec (ca_slot m) (qh_cert_slot s)) as [ESL|]; cbn [negb] in H; [|discriminate].
  destruct HS as (H8 & MS & HC). pose proof FO as (F1 & F2 & F3 & F4 & F5 & F6 & F7).
  apply bind_inv in H as ([] & t1 & X & H).
  assert (NP : (ca_slot m =? PROVISIONED_MASK)%N = false) by (apply N.eqb_neq; unfold PROVISIONED_MASK; lia).
  rewrite NP in X. cbn [negb] in X. apply bind_inv in X as (b & t2 & Y & X). apply lift_inv in Y as [Y ->].
  destruct (N.land (ca_slot_mask m) b =? 0)%N eqn:EB; [discriminate|]. injection X as <-.
  apply (slot_bit_inv (ca_slot m) (ca_slot_mask m) b) in Y as [TB OC]; [|lia|exact EB].
  apply bind_inv in H as ([] & t1 & X & H).
  destruct (Nat.ltb_spec (length (qh_cert_chain s)) (N.to_nat (qh_cert_chain_size s))) as [|LC]; [discriminate|]. injection X as <-.
  apply bind_inv in H as (dg & t1 & X & H). apply lift_inv in X as [X ->]. apply digest_inv in X as [U ->]; [|exact HC].
  destruct (list_eqb (ca_cert_chain_hash m) (sha (al_base_hash (qh_algorithms s)) (firstn (N.to_nat (qh_cert_chain_size s)) (qh_cert_chain s)))) eqn:EQ;
    cbn [negb] in H; [|discriminate]. apply list_eqb_iff in EQ.
  apply bind_inv in H as ([] & t1 & X & H).
  assert (E3 : rsp = ([0x11; 0x03]%N ++ ca_bytes rsvd olen m) ++ r) by (rewrite E0, E2; reflexivity).
  destruct (ca_sig_suffix rsvd olen m r ss E3 F7) as [BS LR].
  destruct (Nat.ltb_spec (length rsp) ss); [lia|]. injection X as <-.
  apply bind_inv in H as (u & t1 & X & H). apply tr_extend_inv in X as [W1 G1]; [|exact W].
  apply bind_inv in H as (tr & t2 & X & H). unfold gets in X. injection X as <- <-.
  apply bind_inv in H as (hh & t2 & X & H). apply lift_inv in X as [X ->]. apply digest_inv in X as [_ ->]; [|exact HC].
  apply lift_inv in H as [H ->].
  apply (verify_chain_spec s _ _ (firstn (N.to_nat (qh_cert_chain_size s)) (qh_cert_chain s)) _ ss) in H; auto; [|apply U].
  destruct H as (IA & chain & CT & SV). split; [exact W1|].
  eapply (accepted_challenge root rsp s _ m rsvd olen ss _ chain); [exact U|exact HS1|exact HS2|exact IA| |exact RV|exact OL|exact FO|exact ESL|exact TB|exact OC
    |reflexivity| | |exact EQ|exact CT|exact G1|exact SV].
  - exists r. exact E3.
  - rewrite firstn_length. lia.
  - rewrite firstn_length. lia.
Qed.

Lemma req_dispatch_sound st st' t t' : st_ok st -> t_wf t -> req_dispatch st root rsp t = (Ok st', t') ->
  t_wf t' /\ accepted root rsp st (t_get t) st' (t_get t').
Proof.
  intros SO W H. destruct st as [| |s|s|s|s|]; try discriminate.
  - cbn [req_dispatch] in H. apply bind_inv in H as (s & t1 & X & H). injection H as <- <-. now apply version_accept_sound.
  - cbn [req_dispatch] in H. apply bind_inv in H as (s' & t1 & X & H). injection H as <- <-. now apply capabilities_accept_sound.
  - now apply algorithms_accept_sound.
  - destruct (qi_digests s) as [d|] eqn:ED.
    + apply certificate_accept_sound; auto. congruence.
    + cbn [req_dispatch] in H. rewrite ED in H. apply bind_inv in H as (s' & t1 & X & H). injection H as <- <-. now apply digests_accept_sound.
  - cbn [req_dispatch] in H. apply bind_inv in H as ([] & t1 & X & H). injection H as <- <-. now apply challenge_accept_sound.
Qed.
(** * Every specified response is accepted if the log has room *)
Lemma t_body_run {St E A} (k : list N -> M St E A) a b r c : rsp = [a; b] ++ r -> bind (lift (body_of rsp)) k c = k r c.
Proof. intros ->. reflexivity. Qed.
Lemma t_parse_run {St E F A B} (parse : list N -> res E A) fmt (f : E -> F) (k : A -> M St F B) a b bs r m c :
  rsp = ([a; b] ++ bs) ++ r -> parses_exactly parse fmt -> fmt bs m ->
  bind (map_err f (lift (parse (bs ++ r)))) k c = k m c.
Proof.
  intros E1 P FM. apply bind_run, map_err_lift_run. apply P; [|eauto]. rewrite E1, <- app_assoc in Hrsp. apply bytes_app in Hrsp. tauto.
Qed.
Lemma algorithms_long body al : algorithms_fmt body al -> 2 < length body.
Proof. intros (len & t & X). decompose [and] X. subst. unfold algorithms_layout. rewrite !app_length. simpl. lia. Qed.

Lemma req_dispatch_complete st st' t log' : st_ok st -> t_wf t -> accepted root rsp st (t_get t) st' log' ->
  length log' <= TRANSCRIPT_SIZE ->
  exists t', req_dispatch st root rsp t = (Ok st', t') /\ t_wf t' /\ t_get t' = log'.
Proof.
  intros SO W HA LT. remember (t_get t) as log eqn:EG. 
  destruct HA as [log es v (r & E1) F LE HC|s log oct own ct fl Q1 Q2 (r & E1) FB
    |s log na es al fs body st' EN N1 (unused & N2) (r & E1) FM N3 A3 SE ->
    |s log d ED KH DL L (r & E1) DO|s log c portion st' ED (r & E1) CH ->
    |s log m rsvd olen ss portion chain log' U HS1 HS2 IA (r & E1) RV OL FO ESL TB OC EP LP LP2 EQ CT -> SV]; subst log.
  - (* version *)
    destruct (tr_extend_run rsp t W LT) as (t1 & X & W1 & G1). exists t1. split; [|auto].
    cbn [req_dispatch]. unfold req_version_handle_msg.
    assert (L : 2 < length rsp) by (rewrite E1; unfold version_body; rewrite !app_length; simpl; lia).
    assert (SW : starts_with [version_of KVersion; code_of KVersion] rsp) by (exists (version_body es ++ r); rewrite E1; reflexivity).
    unfold bind at 1. change Version_id with (id_of KVersion). rewrite (bind_run _ _ _ _ _ (req_expect_run KVersion rsp t L SW)).
    rewrite (t_body_run _ 0x10%N 0x04%N (version_body es ++ r)) by (rewrite E1; now rewrite <- app_assoc).
    assert (VH : version_has (mkVersion (N.of_nat (length es)) (es ++ repeat (mkVE 0 0 0 0) (2 - length es))) es).
    { split; [exact LE|]. split; reflexivity. }
    rewrite (t_parse_run _ _ _ _ _ _ _ r _ _ E1 C07_version_parse (ex_intro _ es (conj VH (conj F eq_refl)))).
    destruct (@find_max_spec RequesterError _ es VH F) as [(w & FMX & HC')|[FMX NO]].
    2: { exfalso. destruct HC as (H1 & H2 & _). exact (NO v H1 H2). }
    rewrite (highest_unique _ _ _ HC HC'). rewrite (bind_run _ _ _ _ _ (lift_run _ _ _ FMX)). cbv iota.
    rewrite (bind_run _ _ _ _ _ X). reflexivity.
  - (* capabilities *)
    destruct (tr_extend_run rsp t W LT) as (t1 & X & W1 & G1). exists t1. split; [|auto].
    cbn [req_dispatch]. unfold req_cap_handle_msg.
    assert (L : 2 < length rsp) by (rewrite E1; unfold capabilities_layout; rewrite !app_length; simpl; lia).
    assert (SW : starts_with [version_of KCapabilities; code_of KCapabilities] rsp) by (exists (capabilities_layout ct fl ++ r); rewrite E1; reflexivity).
    unfold bind at 1. change Capabilities_id with (id_of KCapabilities). rewrite (bind_run _ _ _ _ _ (req_expect_run KCapabilities rsp t L SW)).
    rewrite (t_body_run _ 0x11%N 0x61%N (capabilities_layout ct fl ++ r)) by (rewrite E1; now rewrite <- app_assoc).
    rewrite (t_parse_run _ _ _ _ _ _ _ r (mkCapabilities ct fl) _ E1 C08_capabilities_parse (conj FB eq_refl)).
    rewrite (bind_run _ _ _ _ _ X). unfold req_alg_from. cbn [qc_requester_ct qc_requester_cap qc_responder_ct qc_responder_cap qc_version].
    rewrite Q1, Q2. reflexivity.
  - (* algorithms *)
    destruct (tr_extend_run rsp t W LT) as (t1 & X & W1 & G1). exists t1. split; [|auto].
    cbn [req_dispatch]. unfold req_alg_handle_msg.
    assert (L : 2 < length rsp) by (pose proof (algorithms_long _ _ FM); rewrite E1, !app_length; simpl; lia).
    assert (SW : starts_with [version_of KAlgorithms; code_of KAlgorithms] rsp) by (exists (body ++ r); rewrite E1; reflexivity).
    unfold bind at 1. change Algorithms_id with (id_of KAlgorithms). rewrite (bind_run _ _ _ _ _ (req_expect_run KAlgorithms rsp t L SW)).
    rewrite (t_body_run _ 0x11%N 0x63%N (body ++ r)) by (rewrite E1; now rewrite <- app_assoc).
    rewrite (t_parse_run _ _ _ _ _ _ _ r al _ E1 C10_algorithms_parse FM).
    apply (ensure_valid_spec s na es unused body al fs EN N1 N2 FM N3 A3) in SE.
    rewrite (bind_run _ _ _ _ _ (lift_run _ _ _ SE)), (bind_run _ _ _ _ _ X). unfold ret at 1.
    cbn [qa_requester_cap qa_responder_cap]. change ReqFlags_CERT_CAP with (2 ^ cert_bit)%N. change RspFlags_CERT_CAP with (2 ^ cert_bit)%N.
    rewrite both_contains. destruct (both cert_bit _ _); reflexivity.
  - (* digests *)
    destruct (tr_extend_run rsp t W LT) as (t1 & X & W1 & G1). exists t1. split; [|auto].
    cbn [req_dispatch]. rewrite ED. unfold handle_digests.
    assert (SW : starts_with [version_of KDigests; code_of KDigests] rsp).
    { exists (digests_layout NUM_SLOTS (d_slot_mask d) (slot_digest d) ++ r). rewrite E1. reflexivity. }
    unfold bind at 1. change Digests_id with (id_of KDigests). rewrite (bind_run _ _ _ _ _ (req_expect_run KDigests rsp t L SW)).
    rewrite (bind_run _ _ _ _ _ (lift_run _ _ _ (digest_size_run _ KH DL))).
    rewrite (t_body_run _ 0x11%N 0x01%N (digests_layout NUM_SLOTS (d_slot_mask d) (slot_digest d) ++ r)) by (rewrite E1; now rewrite <- app_assoc).
    rewrite (t_parse_run _ _ _ _ _ _ _ r d _ E1 (C11_digests_parse _ (proj1 HS)) (conj DO eq_refl)).
    rewrite (bind_run _ _ _ _ _ X). reflexivity.
  - (* certificate *)
    destruct (tr_extend_run rsp t W LT) as (t1 & X & W1 & G1). exists t1. split; [|auto].
    cbn [req_dispatch]. destruct (qi_digests s) as [dg|] eqn:ED'; [|congruence]. unfold handle_certificate.
    assert (L : 2 < length rsp) by (rewrite E1; unfold certificate_layout; rewrite !app_length; simpl; lia).
    assert (SW : starts_with [version_of KCertificate; code_of KCertificate] rsp).
    { exists (certificate_layout (cert_slot c) portion (cert_remainder_length c) ++ r). rewrite E1. reflexivity. }
    unfold bind at 1. change Certificate_id with (id_of KCertificate). rewrite (bind_run _ _ _ _ _ (req_expect_run KCertificate rsp t L SW)).
    rewrite (t_body_run _ 0x11%N 0x02%N (certificate_layout (cert_slot c) portion (cert_remainder_length c) ++ r)) by (rewrite E1; now rewrite <- app_assoc).
    rewrite (t_parse_run _ _ _ _ _ _ _ r c _ E1 C12_certificate_parse (ex_intro _ portion (conj CH eq_refl))).
    rewrite (bind_run _ _ _ _ _ X). unfold ret at 1. cbn [qi_requester_cap qi_responder_cap].
    change ReqFlags_CHAL_CAP with (2 ^ chal_bit)%N. change RspFlags_CHAL_CAP with (2 ^ chal_bit)%N.
    rewrite both_contains. destruct CH as (_ & _ & PL & _). rewrite <- PL. destruct (both chal_bit _ _); reflexivity.
  - (* challenge *)
    destruct SO as (SB & SL & SN).
    destruct (tr_extend_run (firstn (length rsp - ss) rsp) t W LT) as (t1 & X & W1 & G1). exists t1. split; [|auto].
    cbn [req_dispatch]. unfold req_chal_handle_msg. pose proof HS as (H8 & MS & HC).
    pose proof FO as (F1 & F2 & F3 & F4 & F5 & F6 & F7).
    assert (L : 2 < length rsp) by (rewrite E1; unfold ca_bytes, challenge_auth_layout; rewrite !app_length; simpl; lia).
    assert (SW : starts_with [version_of KChallengeAuth; code_of KChallengeAuth] rsp).
    { exists (ca_bytes rsvd olen m ++ r). rewrite E1. reflexivity. }
    unfold bind at 1. change ChallengeAuth_id with (id_of KChallengeAuth). rewrite (bind_run _ _ _ _ _ (req_expect_run KChallengeAuth rsp t L SW)).
    pose proof U as (PR & S2 & LH).
    assert (KH : known_hash (al_base_hash (qh_algorithms s))) by (unfold known_hash; destruct S2 as [E|[E|E]]; rewrite E; simpl; auto).
    rewrite (bind_run _ _ _ _ _ (lift_run _ _ _ (digest_size_run _ KH LH))).
    rewrite (bind_run _ _ _ ss t).
    2: { apply lift_run. rewrite (sig_size_of _ _ HS1). unfold signature_size. destruct (Nat.leb_spec ss MAX_SIGNATURE_SIZE); [auto|lia]. }
    rewrite (t_body_run _ 0x11%N 0x03%N (ca_bytes rsvd olen m ++ r)) by (rewrite E1; now rewrite <- app_assoc).
    rewrite (t_parse_run _ _ _ _ _ _ _ r m _ E1 (C15_challenge_auth_parse _ _)) by (exists rsvd, olen; auto).
    rewrite ESL, N.eqb_refl. cbn [negb].
    assert (NP : (qh_cert_slot s =? PROVISIONED_MASK)%N = false) by (apply N.eqb_neq; unfold PROVISIONED_MASK; lia).
    rewrite NP. cbn [negb].
    destruct (slot_bit_spec (qh_cert_slot s) (ca_slot_mask m)) as (b & B1 & B2); [lia|rewrite <- ESL; exact OC|].
    rewrite (bind_run _ _ _ tt t).
    2: { rewrite (bind_run _ _ _ _ _ (lift_run _ _ _ B1)). rewrite <- ESL in B2. rewrite (proj2 B2 TB). reflexivity. }
    destruct (Nat.ltb_spec (length (qh_cert_chain s)) (N.to_nat (qh_cert_chain_size s))); [lia|].
    rewrite (bind_run (ret tt) _ _ tt _ eq_refl).
    rewrite (bind_run _ _ _ _ _ (lift_run _ _ _ (digest_usable _ _ HC U))).
    rewrite <- EP. rewrite (proj2 (list_eqb_iff _ _) EQ). cbn [negb].
    destruct (ca_sig_suffix rsvd olen m r ss E1 F7) as [BS LR].
    destruct (Nat.ltb_spec (length rsp) ss); [lia|].
    rewrite (bind_run (ret tt) _ _ tt _ eq_refl). rewrite (bind_run _ _ _ _ _ X).
    rewrite (bind_run (gets _) _ _ _ _ eq_refl). rewrite (bind_run _ _ _ _ _ (lift_run _ _ _ (digest_usable _ _ HC U))).
    unfold lift. rewrite (proj2 (verify_chain_spec s _ _ portion _ ss PR SB SN HS1 F7 HS2 BS EP SL)); [reflexivity|].
    split; [exact IA|]. exists chain. split; [exact CT|]. rewrite G1. exact SV.
Qed.
End ReqMsg.
