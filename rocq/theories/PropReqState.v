(** C34-C38, C41: the requester over every history of calls and responses. *)
From Verif Require Import Base BaseLemmas Config Encoding MsgCommon MsgVersion MsgCapabilities MsgAlgorithms MsgDigest
     MsgCertificates MsgChallenge MsgError Transcript Crypto Responder Requester SpecWire SpecMsgs SpecResponder SpecRequester
     FlagLemmas PropTools PropTranscript PropVersionCaps PropAlg PropCerts PropChal PropGeneric PropTables PropDer RspParts RspStep
     ReqStep ReqMsg PropRequester Sample SampleRun SampleReq.

#[local] Opaque chain_bytes.
#[local] Arguments Nat.leb : simpl never.
Section PropReqState.
Context {cfg : Config} {cr : Crypto}.

(** * C36: protocol order and completion *)
(** What a session can be: its events and its state follow the grammar. *)
Theorem C36_session_grammar root ev R : req_setting -> req_session root ev R ->
  exists st, req_state R = Some st /\ req_now root ev st.
Proof. intros HS H. destruct (session_now root ev R HS H) as (st & _ & E & _ & _ & N & _). eauto. Qed.

Lemma received_app a b : received (a ++ b) = received a ++ received b.
Proof. apply flat_map_app. Qed.
Lemma received_asks n m : received (asks n m) = [].
Proof. induction n; auto. Qed.
Lemma received_challenges slot l : received (challenges slot l) = [].
Proof. induction l; auto. Qed.
Lemma firstn_S_nth {A} (l : list A) : forall k x, nth_error l k = Some x -> firstn (S k) l = firstn k l ++ [x].
Proof.
  induction l as [|y l IH]; intros [|k] x E; try discriminate.
  - injection E as ->. reflexivity.
  - cbn [firstn app]. f_equal. exact (IH k x E).
Qed.
Definition steps : list N := [0x04; 0x61; 0x63; 0x01; 0x02; 0x03]%N.
Definition heard (k : nat) (ev : list event) : Prop := map code (received ev) = firstn k steps.
Lemma heard_more k ev n q m : heard k ev -> nth_error steps k = Some (code m) -> heard (S k) (ev ++ asks n q ++ [Got m]).
Proof.
  unfold heard. intros H E. rewrite !received_app, received_asks, map_app, H. cbn [app received flat_map map].
  symmetry. now apply firstn_S_nth.
Qed.
Lemma heard_asks k ev n q : heard k ev -> heard k (ev ++ asks n q).
Proof. unfold heard. now rewrite received_app, received_asks, app_nil_r. Qed.
Lemma heard_version v ev : told_version v ev -> heard 1 ev.
Proof.
  intros [n m es SW _ _ _ _]. change (asks n get_version_bytes ++ [Got m]) with ([] ++ asks n get_version_bytes ++ [Got m]).
  apply heard_more; [reflexivity|]. now rewrite (starts_code _ _ _ _ SW).
Qed.
Lemma heard_capabilities v own ct fl ev : told_capabilities v own ct fl ev -> heard 2 ev.
Proof. intros [ev0 n m T _ _ SW _ _]. apply heard_more; [eapply heard_version; eauto|]. now rewrite (starts_code _ _ _ _ SW). Qed.
Lemma heard_algorithms v own ct fl al ev : told_algorithms v own ct fl al ev -> heard 3 ev.
Proof. intros [ev0 n m na fs body T _ SW _ _ _ _ _]. apply heard_more; [eapply heard_capabilities; eauto|]. now rewrite (starts_code _ _ _ _ SW). Qed.
Lemma heard_digests v own ct fl al d ev : told_digests v own ct fl al d ev -> heard 4 ev.
Proof. intros [ev0 n m T _ SW _ _]. apply heard_more; [eapply heard_algorithms; eauto|]. now rewrite (starts_code _ _ _ _ SW). Qed.
Lemma heard_certificate v own ct fl al d slot portion ev : told_certificate v own ct fl al d slot portion ev -> heard 5 ev.
Proof. intros [ev0 n m r T SW _ _]. apply heard_more; [eapply heard_digests; eauto|]. now rewrite (starts_code _ _ _ _ SW). Qed.
Lemma heard_now root ev st : req_now root ev st -> exists k, heard k ev.
Proof.
  destruct st as [| |s|s|s|s|]; cbn [req_now].
  - tauto.
  - intros (n & ->). exists 0. unfold heard. now rewrite received_asks.
  - intros (ev0 & n & own & T & -> & _). exists 1. apply heard_asks. eapply heard_version; eauto.
  - intros (ev0 & n & own & T & -> & _). exists 2. apply heard_asks. eapply heard_capabilities; eauto.
  - intros [H _]. destruct (qi_digests s).
    + destruct H as (ev0 & n & T & ->). exists 4. apply heard_asks. eapply heard_digests; eauto.
    + destruct H as (ev0 & n & T & ->). exists 3. apply heard_asks. eapply heard_algorithms; eauto.
  - intros (ev0 & nonces & d & T & -> & _). exists 5. unfold heard. rewrite received_app, received_challenges, app_nil_r.
    eapply heard_certificate; eauto.
  - intros (v & own & ct & fl & al & [[_ T]|[(_ & d & slot & portion & T)|(d & slot & portion & ev0 & nonces & rsp & ss & _ & T & _ & -> & _ & A)]]).
    + exists 3. eapply heard_algorithms; eauto.
    + exists 5. eapply heard_certificate; eauto.
    + exists 6. unfold heard. rewrite !received_app, received_challenges, map_app. rewrite (heard_certificate _ _ _ _ _ _ _ _ _ T).
      destruct A as (m & rsvd & olen & chain & SW & _). cbn [app received flat_map map]. rewrite (starts_code _ _ _ _ SW). reflexivity.
Qed.
(** Responses are accepted only in protocol order, each at most once. *)
Theorem C36_protocol_order root ev R : req_setting -> req_session root ev R ->
  exists k, map code (received ev) = firstn k [0x04; 0x61; 0x63; 0x01; 0x02; 0x03]%N.
Proof.
  intros HS H. destruct (C36_session_grammar root ev R HS H) as (st & _ & N). destruct (heard_now _ _ _ N) as (k & K). exists k. exact K.
Qed.

Lemma last_got {A} (a b : list A) x y : a ++ [x] = b ++ [y] -> a = b /\ x = y.
Proof. apply app_inj_tail. Qed.

(** handle_msg returns Ok(true) in exactly three situations, (a), (b) and (c);
    in all other situations a success is Ok(false) and there is more to ask. *)
Theorem C36_completion root ev R rsp b R' : req_setting -> req_session root ev R -> bytes rsp ->
  requester_handle_msg R rsp = (Ok b, R') ->
  (b = true ->
   exists v own ct flags al,
     (** (a) *)
     (code rsp = 0x63%N /\ told_algorithms v own ct flags al (ev ++ [Got rsp]) /\ both cert_bit own flags = false) \/
     (** (b) *)
     (code rsp = 0x02%N /\ (exists d slot portion, told_certificate v own ct flags al d slot portion (ev ++ [Got rsp])) /\
      both cert_bit own flags = true /\ both chal_bit own flags = false) \/
     (** (c) *)
     (code rsp = 0x03%N /\ both cert_bit own flags = true /\ both chal_bit own flags = true /\
      exists d slot portion ev0 nonces ss,
        told_certificate v own ct flags al d slot portion ev0 /\ ev = ev0 ++ challenges slot nonces /\
        sig_len (al_base_asym al) = Some ss /\
        authenticates root al slot portion (events_log ss (ev ++ [Got rsp])) ss rsp)) /\
  (b = false -> exists st, req_state R' = Some st /\ st <> ReqNewSession /\ st <> ReqError).
Proof.
  intros HS H HB E. destruct (session_now root ev R HS H) as (st & NW).
  destruct (now_got root ev R st rsp b R' HS NW HB E) as (st' & (_ & ES' & _ & _ & NW' & _) & BT & _). split; intros B.
  - apply BT in B. subst st'. cbn [req_now] in NW'. destruct NW' as (v & own & ct & fl & al & HC). exists v, own, ct, fl, al.
    destruct HC as [[BC T]|[(BC & d & slot & portion & T)|(d & slot & portion & ev0 & nonces & rsp0 & ss & BC & T & F & EV & SL & A)]].
    + left. split; [|auto]. inversion T as [ev0 n m na fs body T0 O SW FM _ _ _ _ EV]. rewrite app_assoc in EV. apply last_got in EV as [_ EV].
      injection EV as ->. eapply starts_code; eauto.
    + right. left. inversion T as [ev0 n m r T0 SW _ _ EV]. rewrite app_assoc in EV. apply last_got in EV as [_ EV].
      injection EV as ->. split; [eapply starts_code; eauto|]. split; [eauto|]. split; [|auto]. now inversion T0.
    + right. right. rewrite app_assoc in EV. pose proof EV as EV2. apply last_got in EV as [EV0 EV]. injection EV as <-.
      split; [destruct A as (m & rsvd & olen & chain & SW & _); eapply starts_code; eauto|].
      split. { inversion T as [ev1 n m r T0]. now inversion T0. }
      split; [auto|]. exists d, slot, portion, ev0, nonces, ss. auto.
  - exists st'. split; [auto|]. split; [intros X; apply BT in X; congruence|]. intros ->. exact NW'.
Qed.

(** * C35: only algorithms that were offered *)
Lemma told_selected v own ct fl al ev : told_algorithms v own ct fl al ev -> selected ev al.
Proof.
  intros [ev0 n m na fs body T O SW FM _ _ _ HB]. exists m, body. split; [|auto]. rewrite !received_app. apply in_or_app. right.
  apply in_or_app. right. simpl. auto.
Qed.
Lemma NoDup_map_inj {A B} (f : A -> B) l a b : NoDup (map f l) -> In a l -> In b l -> f a = f b -> a = b.
Proof.
  induction l as [|x l IH]; simpl; [tauto|]. intros ND HA HB E. inversion ND as [|? ? NI ND']; subst.
  destruct HA as [->|HA], HB as [->|HB]; auto.
  - exfalso. apply NI. rewrite E. now apply in_map.
  - exfalso. apply NI. rewrite <- E. now apply in_map.
Qed.
Lemma steps_nodup k : NoDup (firstn k steps).
Proof.
  do 7 (destruct k as [|k]; [repeat (constructor; [simpl; intuition discriminate|]); constructor|]).
  repeat (constructor; [simpl; intuition discriminate|]); constructor.
Qed.
Lemma selected_unique root ev R al al' : req_setting -> req_session root ev R -> selected ev al -> selected ev al' -> al = al'.
Proof.
  intros HS H (m & body & I & HB & (r & E) & FM) (m' & body' & I' & HB' & (r' & E') & FM').
  destruct (C36_protocol_order root ev R HS H) as (k & K).
  assert (m = m') as <-.
  { apply (NoDup_map_inj code (received ev)); auto; [rewrite K; apply steps_nodup|]. rewrite E, E'. reflexivity. }
  rewrite E in E'. rewrite <- !app_assoc in E'. cbn [app] in E'. injection E' as E'. rewrite E in HB. rewrite <- !app_assoc in HB. 
  assert (HB2 : bytes (body ++ r)) by (apply bytes_app in HB; tauto).
  assert (P1 : algorithms_parse_body (body ++ r) = Ok al) by (apply C10_algorithms_parse; eauto).
  assert (P2 : algorithms_parse_body (body ++ r) = Ok al') by (apply C10_algorithms_parse; [exact HB2|rewrite E'; eauto]).
  congruence.
Qed.

Lemma told_selection v own ct fl al ev : told_algorithms v own ct fl al ev ->
  exists na fs, own_offer na /\ al_num_responses al = N.of_nat (length fs) /\ alg_array (al_responses al) fs /\
    Forall alg_one_bit fs /\ selection_ok na own_structs al fs.
Proof.
  intros [ev0 n m na fs body T O SW FM N3 A3 SE _]. exists na, fs. split; [auto|]. split; [auto|]. split; [auto|]. split; [|exact SE].
  destruct FM as (len & t & _ & _ & OB & _ & _ & _ & _ & N4 & A4 & _).
  assert (fs = map fst t) as ->.
  { eapply alg_array_unique; eauto. rewrite map_length. lia. }
  apply Forall_forall. intros x Hx. apply in_map_iff in Hx as (y & <- & Hy). rewrite Forall_forall in OB. now apply OB.
Qed.
Lemma not_selected k ev al : heard k ev -> ~ In 0x63%N (firstn k steps) -> ~ selected ev al.
Proof. unfold heard. intros K NI (m & body & I & _ & (r & E) & _). apply NI. rewrite <- K. apply in_map_iff. exists m. split; [now rewrite E|auto]. Qed.
Lemma selected_told root ev R al : req_setting -> req_session root ev R -> selected ev al ->
  exists v own ct fl ev0 ev1, ev = ev0 ++ ev1 /\ told_algorithms v own ct fl al ev0.
Proof.
  intros HS H SL. destruct (C36_session_grammar root ev R HS H) as (st & _ & NW).
  assert (X : forall v own ct fl al' ev0 ev1, ev = ev0 ++ ev1 -> told_algorithms v own ct fl al' ev0 ->
     exists v own ct fl ev0 ev1, ev = ev0 ++ ev1 /\ told_algorithms v own ct fl al ev0).
  { intros v own ct fl al' ev0 ev1 -> T. 
    assert (al' = al) as ->.
    { eapply selected_unique; eauto. destruct (told_selected _ _ _ _ _ _ T) as (m & body & I & Y). exists m, body. split; [|auto].
      rewrite received_app. apply in_or_app. auto. }
    eauto 10. }
  destruct st as [| |s|s|s|s|]; cbn [req_now] in NW.
  - tauto.
  - exfalso. destruct NW as (n & ->). revert SL. apply (not_selected 0); [unfold heard; now rewrite received_asks|simpl; tauto].
  - exfalso. destruct NW as (ev0 & n & own & T & -> & _). revert SL. apply (not_selected 1).
    + apply heard_asks. eapply heard_version; eauto.
    + simpl. intuition discriminate.
  - exfalso. destruct NW as (ev0 & n & own & T & -> & _). revert SL. apply (not_selected 2).
    + apply heard_asks. eapply heard_capabilities; eauto.
    + simpl. intuition discriminate.
  - destruct NW as [NW _]. destruct (qi_digests s).
    + destruct NW as (ev0 & n & [ev1 n1 m1 T _ _ _ _] & EV). rewrite <- app_assoc in EV. eapply X; eauto.
    + destruct NW as (ev0 & n & T & EV). eapply X; eauto.
  - destruct NW as (ev0 & nonces & d & T & EV & _). destruct (told_certificate_algorithms _ _ _ _ _ _ _ _ _ T) as (e0 & e1 & -> & T').
    rewrite <- app_assoc in EV. eapply X; eauto.
  - destruct NW as (v & own & ct & fl & al' & [[_ T]|[(_ & d & slot & portion & T)|(d & slot & portion & ev0 & nonces & rsp & ss & _ & T & _ & EV & _ & A)]]).
    + eapply (X v own ct fl al' ev []); eauto. now rewrite app_nil_r.
    + destruct (told_certificate_algorithms _ _ _ _ _ _ _ _ _ T) as (e0 & e1 & -> & T'). eapply X; eauto.
    + destruct (told_certificate_algorithms _ _ _ _ _ _ _ _ _ T) as (e0 & e1 & -> & T'). rewrite <- app_assoc in EV. eapply X; eauto.
Qed.

(** Whatever an accepted ALGORITHMS message selected is, field by field, one
    single algorithm that this requester's own request offered. *)
Theorem C35_selected_was_offered root ev R al : req_setting -> req_session root ev R -> selected ev al ->
  exists na fs, own_offer na /\ al_num_responses al = N.of_nat (length fs) /\ alg_array (al_responses al) fs /\
    al_measurement_spec al = na_measurement_spec na /\
    picked_from (na_base_asym_algo na) (al_base_asym al) /\
    picked_from (na_base_hash_algo na) (al_base_hash al) /\
    picked_from (na_base_hash_algo na) (al_measurement_hash al) /\
    forall f, In f fs -> exists e, In e (na_requests na) /\ alg_struct_type e = alg_struct_type f /\
                                   picked_from (alg_struct_fixed e) (alg_struct_fixed f).
Proof.
  intros HS H SL. destruct (selected_told root ev R al HS H SL) as (v & own & ct & fl & ev0 & ev1 & -> & T).
  destruct (told_selection _ _ _ _ _ _ T) as (na & fs & O & N3 & A3 & OB & SE). exists na, fs. pose proof SE as (S1 & S2 & S3 & S4 & S5).
  repeat (split; [assumption|]). intros f I. pose proof O as (_ & _ & _ & _ & _ & ->).
  assert (X : exists e, In e own_structs /\ alg_struct_type e = alg_struct_type f).
  { destruct f; [exists (Dhe 0x12)|exists (Aead 0x06)|exists (ReqBaseAsym 0x90)|exists (KeySchedule 0x01)]; (split; [simpl; auto|reflexivity]). }
  destruct X as (e & I2 & ET). exists e. auto.
Qed.
(** Any other selection is refused, with that error. *)
Theorem C35_refused root ev R s na rsp body al fs : req_setting -> req_session root ev R ->
  req_state R = Some (ReqAlgorithms s) -> qa_negotiate s = Some na -> bytes rsp ->
  starts_with ([0x11; 0x63]%N ++ body) rsp -> algorithms_fmt body al ->
  al_num_responses al = N.of_nat (length fs) -> alg_array (al_responses al) fs -> ~ selection_ok na own_structs al fs ->
  exists R', requester_handle_msg R rsp = (Err ReqSelectedAlgorithmNotRequested, R') /\ req_state R' = Some ReqError.
Proof.
  intros HS H ES EN HB (r & E1) FM N3 A3 NS. destruct (session_now root ev R HS H) as (st & ER & ES' & W & SO & NW & _).
  rewrite ES in ES'. injection ES' as <-. destruct (SO na EN) as (es & unused & N1 & N2).
  assert (OO : own_offer na).
  { cbn [req_now] in NW. destruct NW as (ev0 & n & na0 & _ & _ & _ & _ & [[_ X]|[O X]]); [congruence|]. congruence. }
  rewrite <- (own_structs_all _ _ _ OO N1 N2) in NS.
  unfold requester_handle_msg. rewrite ES. cbn [req_dispatch]. unfold req_alg_handle_msg.
  assert (L : 2 < length rsp) by (pose proof (algorithms_long _ _ FM); rewrite E1, !app_length; simpl; lia).
  assert (SW : starts_with [version_of KAlgorithms; code_of KAlgorithms] rsp) by (exists (body ++ r); rewrite E1; reflexivity).
  unfold bind at 1. unfold bind at 1. change Algorithms_id with (id_of KAlgorithms). rewrite (req_expect_run KAlgorithms rsp _ L SW).
  rewrite (t_body_run rsp HB _ 0x11%N 0x63%N (body ++ r)) by (rewrite E1; now rewrite <- app_assoc).
  rewrite (t_parse_run rsp HB _ _ _ _ _ _ _ r al _ E1 C10_algorithms_parse FM).
  destruct (ensure_valid_spec s na es unused body al fs EN N1 N2 FM N3 A3) as [V1 [V2|V2]]; [exfalso; apply NS, V1, V2|].
  unfold bind at 1, lift at 1. rewrite V2. eexists. split; reflexivity.
Qed.

(** * C34: the highest common version *)
Theorem C34_highest_common root ev R rsp es : req_setting -> req_session root ev R -> req_state R = Some ReqVersion -> bytes rsp ->
  starts_with ([0x10; 0x04]%N ++ version_body es) rsp -> Forall version_entry_ok es -> length es <= 2 ->
  (forall v, highest_common es v -> length (t_get (req_transcript R)) + length rsp <= TRANSCRIPT_SIZE ->
     exists R', requester_handle_msg R rsp = (Ok false, R') /\ req_state R' = Some (ReqCapabilities (mkReqCap v None None None None))) /\
  ((forall v, In v es -> ~ In v supported_versions) ->
     exists m R', requester_handle_msg R rsp = (Err (ReqNoSupportedVersions m), R') /\ version_has m es /\ req_state R' = Some ReqError).
Proof.
  intros HS H ES HB SW F L. destruct (session_now root ev R HS H) as (st & ER & ES' & W & SO & NW & _).
  rewrite ES in ES'. injection ES' as <-. split.
  - intros v HC LT. destruct (handle_complete R rsp ReqVersion (ReqCapabilities (mkReqCap v None None None None)) 
      (t_get (req_transcript R) ++ rsp) HB HS ES SO W) as (R' & X & ES2 & _).
    + eapply accepted_version; eauto.
    + now rewrite app_length.
    + exists R'. auto.
  - intros NO. destruct SW as (r & E1). set (m := mkVersion (N.of_nat (length es)) (es ++ repeat (mkVE 0 0 0 0) (2 - length es))).
    assert (VH : version_has m es) by (split; [auto|split; reflexivity]). exists m.
    unfold requester_handle_msg. rewrite ES. cbn [req_dispatch]. unfold req_version_handle_msg.
    assert (L2 : 2 < length rsp) by (rewrite E1; unfold version_body; rewrite !app_length; simpl; lia).
    assert (SW : starts_with [version_of KVersion; code_of KVersion] rsp) by (exists (version_body es ++ r); rewrite E1; reflexivity).
    unfold bind at 1. unfold bind at 1. change Version_id with (id_of KVersion). rewrite (req_expect_run KVersion rsp _ L2 SW).
    rewrite (t_body_run rsp HB _ 0x10%N 0x04%N (version_body es ++ r)) by (rewrite E1; now rewrite <- app_assoc).
    rewrite (t_parse_run rsp HB _ _ _ _ _ _ _ r m _ E1 C07_version_parse).
    2: { exists es. auto. }
    destruct (@find_max_spec RequesterError m es VH F) as [(w & _ & I1 & I2 & _)|[FM _]]; [exfalso; now apply (NO w)|].
    unfold bind at 1, lift at 1. rewrite FM. eexists. split; [reflexivity|]. auto.
Qed.
(** One of the two cases always applies, and the chosen version does not depend
    on the order of the list. *)
Theorem C34_one_case es : (exists v, highest_common es v) \/ (forall v, In v es -> ~ In v supported_versions).
Proof.
  assert (D : forall (v : VersionEntry) es', {In v es'} + {~ In v es'}).
  { intros. apply in_dec. intros [] []. decide equality; apply N.eq_dec. }
  destruct (D (mkVE 1 1 0 0) es) as [I|I].
  - left. exists (mkVE 1 1 0 0). split; [auto|]. split; [simpl; auto|]. intros w _ [<-|[<-|[]]]; vm_compute; discriminate.
  - destruct (D (mkVE 1 0 0 0) es) as [J|J].
    + left. exists (mkVE 1 0 0 0). split; [auto|]. split; [simpl; auto|]. intros w K [<-|[<-|[]]]; [vm_compute; discriminate|tauto].
    + right. intros v K [<-|[<-|[]]]; tauto.
Qed.
Theorem C34_order_irrelevant es es' v v' : (forall w, In w es <-> In w es') -> highest_common es v -> highest_common es' v' -> v = v'.
Proof.
  intros X (H1 & H2 & H3) H'. apply (highest_unique es' v v' ); [|exact H']. split; [now apply X|]. split; [auto|].
  intros w I. apply H3. now apply X.
Qed.
(** The version error means just that. *)
Theorem C34_error_meaning root ev R rsp m R' : req_setting -> req_session root ev R -> req_state R = Some ReqVersion -> bytes rsp ->
  requester_handle_msg R rsp = (Err (ReqNoSupportedVersions m), R') ->
  exists es, starts_with ([0x10; 0x04]%N ++ version_body es) rsp /\ Forall version_entry_ok es /\ version_has m es /\
    forall v, In v es -> ~ In v supported_versions.
Proof.
  intros HS H ES HB E. unfold requester_handle_msg in E. rewrite ES in E. cbn [req_dispatch] in E. unfold req_version_handle_msg in E.
  destruct (bind _ _ _) as [[st|e|p] t] eqn:D in E; try discriminate. injection E as -> _.
  unfold bind at 1 in D. destruct (bind _ _ _) as [[st|e|p] t2] eqn:D2 in D; try discriminate. injection D as -> ->. 
  unfold bind at 1, lift at 1 in D2. destruct (req_expect Version_id rsp) as [[]|e|p] eqn:X; try discriminate.
  2: { exfalso. unfold req_expect in X. destruct (parse_header _ _) as [[]|e0|p]; try discriminate; [|injection D2 as -> _; discriminate].
       destruct (nth_error rsp 0); [|discriminate]. injection X as <-. discriminate. }
  change Version_id with (id_of KVersion) in X. apply req_expect_inv in X. apply header_iff in X as [L (r & E0)].
  rewrite E0 in D2. change ([version_of KVersion; code_of KVersion] ++ r) with (0x10 :: 0x04 :: r)%N in D2.
  unfold bind at 1, lift at 1 in D2. rewrite body_of_run in D2. unfold bind at 1, map_err at 1, lift at 1 in D2.
  destruct (version_parse_body r) as [v|e|p] eqn:PV; cbn [rmap_err] in D2; try discriminate.
  assert (HB2 : bytes r) by (rewrite E0 in HB; now apply bytes_app in HB).
  apply C07_version_parse in PV; [|exact HB2]. destruct PV as (bs & r2 & E2 & es & VH & F & ->).
  unfold bind at 1, lift at 1 in D2. destruct (@find_max_spec RequesterError v es VH F) as [(w & FM & _)|[FM NO]]; rewrite FM in D2.
  - unfold bind in D2. destruct (tr_extend _ _) as [[u|e|p] t3] eqn:TX; try discriminate. exfalso. unfold tr_extend, map_err in TX.
    destruct (t_extend _ _) as [[u|e'|p] t4]; try discriminate. cbn [rmap_err] in TX. injection TX as <- _. injection D2 as D2 _. discriminate.
  - injection D2 as <- _. exists es. split; [|auto]. exists r2. rewrite E0, E2. reflexivity.
Qed.

(** * C37: the transcript is the message log *)
Lemma events_log_indep ev ss ss' : (forall m, In m (received ev) -> code m <> 3%N) -> events_log ss ev = events_log ss' ev.
Proof.
  induction ev as [|e ev IH] using rev_ind; intros H; [reflexivity|]. rewrite received_app in H.
  rewrite !events_log_snoc, IH by (intros m I; apply H; apply in_or_app; auto).
  destruct e as [m|m]; [reflexivity|]. cbn [event_log]. specialize (H m). rewrite (proj2 (N.eqb_neq (code m) 3)); [reflexivity|].
  apply H. apply in_or_app. right. simpl. auto.
Qed.
Theorem C37_transcript_is_log root ev R : req_setting -> req_session root ev R ->
  ((forall m, In m (received ev) -> code m <> 0x03%N) -> forall ss, t_get (req_transcript R) = events_log ss ev) /\
  (forall al ss, selected ev al -> sig_len (al_base_asym al) = Some ss -> t_get (req_transcript R) = events_log ss ev).
Proof.
  intros HS H. destruct (session_now root ev R HS H) as (st & ER & ES & W & SO & NW & ss0 & LN & LA & LG). split.
  - intros NC ss. rewrite LG. now apply events_log_indep.
  - intros al ss SL EL. rewrite LG. destruct LA as [LA|(v & own & ct & fl & al' & ev0 & ev1 & EV & T & EL')]; [symmetry; apply LA|].
    assert (al' = al) as ->.
    { apply (selected_unique root ev R al' al HS H); [|auto]. destruct (told_selected _ _ _ _ _ _ T) as (m & body & I & Y). exists m, body.
      split; [|auto]. rewrite EV, received_app. apply in_or_app. auto. }
    congruence.
Qed.

(** * C38: authentication *)
(** Completion through the challenge: the last request was a CHALLENGE with the
    nonce drawn for it, the answer authenticates over the log of everything
    since GET_VERSION, which ends in that CHALLENGE and the unsigned answer. *)
Theorem C38_authentication root ev R fresh buf out buf' R1 rsp R2 : req_setting -> req_session root ev R -> fresh_ok fresh ->
  requester_next_request R fresh buf = (Ok out, buf', R1) -> bytes rsp -> requester_handle_msg R1 rsp = (Ok true, R2) ->
  code rsp = 0x03%N ->
  exists v own ct flags al d slot portion ev0 nonces ss,
    told_certificate v own ct flags al d slot portion ev0 /\ ev = ev0 ++ challenges slot nonces /\
    out = [0x11; 0x83]%N ++ challenge_layout slot MHNone (wire_nonce fresh) /\
    sig_len (al_base_asym al) = Some ss /\
    authenticates root al slot portion (events_log ss ev ++ out ++ firstn (length rsp - ss) rsp) ss rsp.
Proof.
  intros HS H FR E1 HB E2 C3. pose proof (req_session_sent root ev R fresh buf out buf' R1 H FR E1) as H1.
  destruct (proj1 (C36_completion root _ R1 rsp true R2 HS H1 HB E2) eq_refl) as
    (v & own & ct & fl & al & [(X & _)|[(X & _)|(_ & BC & BH & d & slot & portion & ev0 & nonces & ss & T & EV & SL & A)]]); try congruence.
  exists v, own, ct, fl, al, d, slot, portion, ev0.
  destruct (exists_last (l := nonces)) as (ns & n & EN).
  { intros ->. cbn [challenges map] in EV. rewrite app_nil_r in EV. subst ev0.
    inversion T as [ev1 n m r T0 SW _ _ EV]. rewrite app_assoc in EV. apply last_got in EV as [_ EV]. discriminate. }
  rewrite EN, <- challenges_snoc, app_assoc in EV. apply last_got in EV as [EV EO]. injection EO as EO. exists ns, ss.
  split; [exact T|]. split; [exact EV|]. 
  destruct (session_now root ev R HS H) as (st & ER & ES & W & _).
  destruct (next_sound R fresh buf out buf' R1 W E1) as (st0 & st' & log' & _ & HR & _).
  split; [|split; [exact SL|]].
  - assert (X : exists slot', out = challenge_msg slot' (wire_nonce fresh)).
    { destruct HR as [log|s log own' out H0 H2 ->|s log na out H0 ->|s log out H0 ->|s log out H0 H2 ->|s log out ->]; [discriminate EO..|eauto]. }
    destruct X as (slot' & X). rewrite EO in X. unfold challenge_msg, challenge_layout in X. cbn [app] in X. injection X as X1 X2.
    rewrite EO, X1, <- X2. reflexivity.
  - rewrite !events_log_snoc in A. cbn [event_log] in A. rewrite C3 in A. rewrite EO in A |- *.
    change (code (challenge_msg slot n) =? 132)%N with false in A. cbv iota in A. change (3 =? 3)%N with true in A. cbv iota in A.
    now rewrite <- app_assoc in A.
Qed.

(** * C41: misuse *)
Theorem C41_complete_is_final R rsp R' fresh buf : requester_handle_msg R rsp = (Ok true, R') ->
  requester_next_request R' fresh buf = (Err ReqInitializationComplete, buf, R').
Proof.
  unfold requester_handle_msg. destruct (req_state R) as [st|]; [|discriminate].
  destruct (req_dispatch st (req_root R) rsp (req_transcript R)) as [[st'|e|p] t']; try discriminate.
  destruct st'; try discriminate. intros [= <-]. reflexivity.
Qed.
(** What a request writer keeps of the state, whatever its outcome. *)
Definition keeps {A} (st : ReqStates) (m : Q A) : Prop := forall c, same_state st (q_state c) -> same_state st (q_state (snd (m c))).
Definition not_complete {A} (m : Q A) : Prop := forall c, fst (m c) <> Err ReqInitializationComplete.
Definition good {A} st (m : Q A) : Prop := keeps st m /\ not_complete m.
Lemma good_bind {A B} st (m : Q A) (k : A -> Q B) : good st m -> (forall x, good st (k x)) -> good st (bind m k).
Proof.
  intros [H1 H2] H3. split.
  - intros c S. unfold bind. specialize (H1 c S). destruct (m c) as [[x|e|p] c1]; cbn [snd] in *; auto. now apply H3.
  - intros c. unfold bind. specialize (H2 c). destruct (m c) as [[x|e|p] c1]; cbn [fst] in *; try discriminate.
    + apply H3.
    + intros [= ->]. now apply H2.
Qed.
Lemma good_ret {A} st (x : A) : good st (ret x).
Proof. split; [intros c S; exact S|discriminate]. Qed.
Lemma good_pnc {A} st p : good st (@pnc QCtx RequesterError A p).
Proof. split; [intros c S; exact S|discriminate]. Qed.
Lemma good_lift {A} st (r : res RequesterError A) : r <> Err ReqInitializationComplete -> good st (lift r).
Proof. intros N. split; [intros c S; exact S|intros c; exact N]. Qed.
Lemma good_write st (w : list N -> res BufferFullError nat * list N) : good st (q_write req_of_full w).
Proof.
  split; intros c; unfold q_write; destruct (w (q_buf c)) as [[n|e|p] b]; cbn; auto; discriminate.
Qed.
Lemma good_prefix st n : good st (q_prefix n).
Proof. split; intros c; unfold q_prefix; destruct (n <=? length (q_buf c)); cbn; auto; discriminate. Qed.
Lemma good_extend st bs : good st (q_extend bs).
Proof.
  split; intros c; unfold q_extend, map_err; destruct (t_extend bs (q_tr c)) as [[u|e|p] t]; cbn; auto; discriminate.
Qed.
Lemma good_clear st : good st q_clear.
Proof. split; [intros c S; exact S|discriminate]. Qed.
Lemma good_set st st' : same_state st st' -> good st (q_set st').
Proof. intros H. split; [intros c S; exact H|discriminate]. Qed.
Lemma flags_no_complete p names : forall n, flags_of_strings p ReqParseCapability names n <> Err ReqInitializationComplete.
Proof. induction names as [|x l IH]; intros n; cbn; [discriminate|]. destruct (p x); [apply IH|discriminate]. Qed.
Lemma flags_no_complete2 p names : forall n, flags_of_strings p ReqParseBaseAsymAlgo names n <> Err ReqInitializationComplete.
Proof. induction names as [|x l IH]; intros n; cbn; [discriminate|]. destruct (p x); [apply IH|discriminate]. Qed.
Lemma good_write_req st fresh : st <> ReqNewSession -> good st (write_req st fresh).
Proof.
  intros NE. destruct st as [| |s|s|s|s|]; cbn [write_req]; try congruence;
    unfold Requester.write_get_version, cap_write_msg, alg_write_msg, write_get_digests_msg, write_get_certificate_msg, chal_write_msg;
    try (destruct (qi_digests s)); try (match goal with |- context [negb ?b] => destruct (negb b) end);
    repeat match goal with
    | |- good _ (bind _ _) => apply good_bind; [|intros]
    | |- good _ (ret _) => apply good_ret
    | |- good _ (pnc _) => apply good_pnc
    | |- good _ (q_write _ _) => apply good_write
    | |- good _ (q_prefix _) => apply good_prefix
    | |- good _ (q_extend _) => apply good_extend
    | |- good _ q_clear => apply good_clear
    | |- good _ (q_set _) => apply good_set; cbn; auto 10
    end.
  - apply good_lift. unfold config_to_get_capabilities_msg. pose proof (flags_no_complete ReqFlags_from_str CAPABILITIES 0) as X.
    destruct (flags_of_strings _ _ _ _); cbn; congruence.
  - apply good_lift. unfold config_to_negotiate_algorithms_msg. pose proof (flags_no_complete2 BaseAsymAlgo_from_str SIGNING_ALGOS 0) as X.
    destruct (flags_of_strings _ _ _ _); cbn; congruence.
Qed.
Lemma same_state_refl st : same_state st st.
Proof. destruct st as [| |s|s|s|s|]; cbn; auto 10. now destruct s. Qed.
Theorem C41_complete_meaning R fresh buf buf' R' : requester_next_request R fresh buf = (Err ReqInitializationComplete, buf', R') ->
  req_state R = Some ReqNewSession /\ buf' = buf /\ R' = R.
Proof.
  unfold requester_next_request. destruct (req_state R) as [st|] eqn:ES; [|discriminate]. intros H.
  destruct (match st with ReqNewSession => true | _ => false end) eqn:E0.
  { destruct st; try discriminate. injection H as <- <-. auto. }
  assert (N2 : st <> ReqNewSession). { intros ->. discriminate. }
  destruct (good_write_req st fresh N2) as [_ G]. specialize (G (mkQCtx buf (req_transcript R) st)).
  assert (H' : (let '(r, c0) := write_req st fresh (mkQCtx buf (req_transcript R) st) in (r, q_buf c0, mkRequester (req_root R) (q_tr c0) (Some (q_state c0)))) = (Err ReqInitializationComplete, buf', R')).
  { destruct st; try congruence; exact H. }
  destruct (write_req _ _ _) as [r c]. injection H' as -> _ _. now destruct G.
Qed.
(** next_request never moves the protocol forward, whatever it returns. *)
Theorem C41_next_keeps_state R fresh buf r buf' R' : requester_next_request R fresh buf = (r, buf', R') ->
  req_root R' = req_root R /\
  match req_state R, req_state R' with Some st, Some st' => same_state st st' | None, None => True | _, _ => False end.
Proof.
  unfold requester_next_request. destruct (req_state R) as [st|] eqn:ES.
  2: { intros [= _ _ <-]. rewrite ES. auto. }
  intros H. destruct (match st with ReqNewSession => true | _ => false end) eqn:E0.
  { destruct st; try discriminate. injection H as _ _ <-. rewrite ES. cbn. auto. }
  assert (N2 : st <> ReqNewSession). { intros ->. discriminate. }
  destruct (good_write_req st fresh N2) as [G _]. specialize (G (mkQCtx buf (req_transcript R) st) (same_state_refl st)).
  assert (H' : (let '(r, c0) := write_req st fresh (mkQCtx buf (req_transcript R) st) in (r, q_buf c0, mkRequester (req_root R) (q_tr c0) (Some (q_state c0)))) = (r, buf', R')).
  { destruct st; try congruence; exact H. }
  destruct (write_req _ _ _) as [r0 c]. injection H' as _ _ <-. auto.
Qed.
(** After an error the requester is in the Error state, and from there (or after
    a panic) no call ever succeeds again or even returns. *)
Theorem C41_error_state R rsp e R' : requester_handle_msg R rsp = (Err e, R') -> req_state R' = Some ReqError.
Proof.
  unfold requester_handle_msg. destruct (req_state R) as [st|]; [|discriminate].
  destruct (req_dispatch st (req_root R) rsp (req_transcript R)) as [[st'|e0|p] t']; try discriminate. now intros [= _ <-].
Qed.
Lemma dead_call R c : (req_state R = Some ReqError \/ req_state R = None) ->
  (req_state (req_after_call R c) = Some ReqError \/ req_state (req_after_call R c) = None).
Proof.
  destruct c as [fresh buf|rsp]; cbn [req_after_call]; intros [E|E].
  - unfold requester_next_request. rewrite E. cbn. auto.
  - unfold requester_next_request. rewrite E. cbn. auto.
  - unfold requester_handle_msg. rewrite E. cbn. auto.
  - unfold requester_handle_msg. rewrite E. auto.
Qed.
Theorem C41_error_is_final R calls fresh buf rsp : (req_state R = Some ReqError \/ req_state R = None) ->
  let R' := req_after R calls in
  (exists p, fst (fst (requester_next_request R' fresh buf)) = Panic p) /\ (exists p, fst (requester_handle_msg R' rsp) = Panic p).
Proof.
  intros D R'. assert (D' : req_state R' = Some ReqError \/ req_state R' = None).
  { unfold R', req_after. clear R'. revert R D. induction calls as [|c l IH]; intros R D; [exact D|]. cbn [fold_left]. apply IH. now apply dead_call. }
  unfold requester_next_request, requester_handle_msg. destruct D' as [-> | ->]; cbn; split; eauto.
Qed.
(** So whatever the history, if a call returns Ok, all that went before is a
    session: the theorems about sessions cover every sequence of calls. *)
Theorem C41_success_means_session root R : req_setting -> req_reached root R ->
  (exists st, req_state R = Some st /\ st <> ReqError) -> exists ev, req_session root ev R.
Proof.
  intros HS (calls & F & ->). induction calls as [|c calls IH] using rev_ind.
  - intros _. exists []. constructor.
  - apply Forall_app in F as [F1 F2]. unfold req_after. rewrite fold_left_app. cbn [fold_left]. fold (req_after (requester_new root) calls).
    set (R0 := req_after (requester_new root) calls) in *. intros (st & ES & NE).
    assert (ND : exists st, req_state R0 = Some st /\ st <> ReqError).
    { destruct (req_state R0) as [st0|] eqn:E0.
      - exists st0. split; [auto|]. intros ->. destruct (dead_call R0 c (or_introl E0)); congruence.
      - destruct (dead_call R0 c (or_intror E0)); congruence. }
    destruct (IH F1 ND) as (ev & H). inversion F2 as [|? ? HC _]; subst. destruct c as [fresh buf|rsp]; cbn [req_after_call req_call_ok] in *.
    + destruct (requester_next_request R0 fresh buf) as [[[out|e|p] buf'] R'] eqn:E.
      * exists (ev ++ [Sent out]). eapply req_session_sent; eauto.
      * exists ev. eapply req_session_failed; eauto.
      * exists ev. destruct ND as (st0 & E0 & N0). unfold requester_next_request in E. rewrite E0 in E.
        destruct (match st0 with ReqNewSession => true | _ => false end) eqn:EE.
        { destruct st0; discriminate. }
        assert (N2 : st0 <> ReqNewSession). { intros ->. discriminate. }
        set (cx := mkQCtx buf (req_transcript R0) st0) in *.
        assert (E' : (let '(r, c0) := write_req st0 fresh cx in (r, q_buf c0, mkRequester (req_root R0) (q_tr c0) (Some (q_state c0)))) = (Panic p, buf', R')).
        { destruct st0; try congruence; exact E. }
        destruct (session_now root ev R0 HS H) as (st1 & ER & ES1 & W & _).
        destruct (write_req_cases st0 fresh cx N0 N2 eq_refl) as [(out0 & st' & log' & HR)|[(e0 & E1 & E2)|[E1 _]]].
        -- exfalso. destruct (write_req_run st0 fresh cx out0 st' log' W eq_refl HR) as (base & E2 & [Q1 Q2] & E3).
           destruct (Nat.le_gt_cases (length out0) (length (q_buf cx))) as [L1|L1].
           ++ destruct (Nat.le_gt_cases (length (base ++ out0)) TRANSCRIPT_SIZE) as [L2|L2].
              ** destruct (Q1 L1 L2) as (c' & X1 & _). rewrite X1 in E'. discriminate.
              ** destruct (Q2 (or_intror L2)) as (c' & X1 & _). rewrite X1 in E'. discriminate.
           ++ destruct (Q2 (or_introl L1)) as (c' & X1 & _). rewrite X1 in E'. discriminate.
        -- rewrite E1 in E'. discriminate.
        -- rewrite E1 in E'. injection E' as _ _ <-. cbn [q_tr q_state cx]. rewrite <- E0. destruct R0; exact H.
    + destruct (requester_handle_msg R0 rsp) as [[b|e|p] R'] eqn:E.
      * exists (ev ++ [Got rsp]). eapply req_session_got; eauto.
      * exfalso. apply C41_error_state in E. congruence.
      * exfalso. unfold requester_handle_msg in E. destruct ND as (st0 & E0 & N0). rewrite E0 in E.
        destruct (req_dispatch _ _ _ _) as [[st1|e1|p1] t1]; try discriminate. injection E as _ <-. discriminate.
Qed.
End PropReqState.

#[local] Existing Instance sample_cfg.
#[local] Existing Instance sample_crypto.
Lemma sample_req_setting : req_setting.
Proof.
  split; [apply Nat.leb_le; reflexivity|]. split; [apply Nat.ltb_lt; reflexivity|].
  intros h data [-> |[-> | ->]]; (split; [reflexivity|]); apply bytes_repeat; apply N.mod_lt; discriminate.
Qed.
Lemma response_bytes i : bytes (sample_response i).
Proof.
  unfold sample_response. do 6 (destruct i as [|i]; [apply bytes_check; vm_compute; reflexivity|]).
  change (nth _ _ _) with (nth i (@nil (list N)) []). destruct i; apply bytes_check; reflexivity.
Qed.
Lemma sample_selected n al : 3 <= n <= 6 -> algorithms_parse_body (skipn 2 (sample_response 2)) = Ok al -> selected (driven_ev n) al.
Proof.
  intros L P. apply C10_algorithms_parse in P as (bs & rest & E & FM); [|apply bytes_skipn, response_bytes].
  exists (sample_response 2), bs. split; [|split; [apply response_bytes|split; [|exact FM]]].
  - assert (X : received (driven_ev n) = firstn n sample_responses).
    { do 7 (destruct n as [|n]; [vm_compute; reflexivity|]). lia. }
    rewrite X. destruct n as [|[|[|n]]]; try lia. right. right. left. reflexivity.
  - exists rest. rewrite <- app_assoc, <- E. reflexivity.
Qed.
(** The sample run authenticates: all hypotheses of C35-C38 hold of it. *)
Example C36_example : req_session [1; 2; 3]%N (driven_ev 5) (driven_R 5) /\
  map code (received (driven_ev 5)) = [0x04; 0x61; 0x63; 0x01; 0x02]%N /\ length (driven_ev 5) = 10 /\
  exists out buf' R1 R2, requester_next_request (driven_R 5) (repeat 7%N 32) big_buf = (Ok out, buf', R1) /\
    requester_handle_msg R1 (sample_response 5) = (Ok true, R2) /\ code (sample_response 5) = 0x03%N.
Proof.
  refine (conj (driven_session 5 _) (conj _ (conj _ _))); [apply Nat.leb_le; reflexivity|vm_compute; reflexivity|vm_compute; reflexivity|].
  assert (E : exists x, requester_next_request (driven_R 5) (repeat 7%N 32) big_buf = x /\
    match fst (fst x) with Ok _ => True | _ => False end /\
    fst (requester_handle_msg (snd x) (sample_response 5)) = Ok true).
  { eexists. split; [reflexivity|]. split; vm_compute; [exact I|reflexivity]. }
  destruct E as ([[[out|e|p] buf'] R1] & E1 & E2 & E3); cbn [fst snd] in *; try tauto.
  exists out, buf', R1. destruct (requester_handle_msg R1 (sample_response 5)) as [r R2]. cbn [fst] in E3. subst r. exists R2. auto.
Qed.
Example C35_example : exists al, selected (driven_ev 4) al /\ al_base_asym al = 0x10%N /\ al_base_hash al = 1%N /\ al_num_responses al = 4%N.
Proof.
  eexists. split; [apply sample_selected; [split; apply Nat.leb_le; reflexivity|vm_compute; reflexivity]|]. repeat split.
Qed.
(** A selection that was not offered: P-384 as the signature algorithm. *)
Definition bad_algorithms : list N := firstn 12 (sample_response 2) ++ [0x80]%N ++ skipn 13 (sample_response 2).
Example C35_refused_example : exists s na body al fs, req_state (driven_R 2) = Some (ReqAlgorithms s) /\ qa_negotiate s = None /\
  (exists out buf' R1 s1, requester_next_request (driven_R 2) (repeat 7%N 32) big_buf = (Ok out, buf', R1) /\
     req_state R1 = Some (ReqAlgorithms s1) /\ qa_negotiate s1 = Some na) /\
  starts_with ([0x11; 0x63]%N ++ body) bad_algorithms /\ algorithms_fmt body al /\
  al_num_responses al = N.of_nat (length fs) /\ alg_array (al_responses al) fs /\ ~ selection_ok na own_structs al fs.
Proof.
  assert (E : exists al na, algorithms_parse_body (skipn 2 bad_algorithms) = Ok al /\ al_base_asym al = 0x80%N /\
     na_base_asym_algo na = 0x10%N /\
     option_map (fun st => match st with ReqAlgorithms s1 => qa_negotiate s1 | _ => None end)
       (req_state (snd (requester_next_request (driven_R 2) (repeat 7%N 32) big_buf))) = Some (Some na)).
  { do 2 eexists. split; [vm_compute; reflexivity|]. split; [reflexivity|]. split; [|vm_compute; reflexivity]. reflexivity. }
  destruct E as (al & na & PB & A1 & N1 & E). apply C10_algorithms_parse in PB as (bs & rest & EB & FM).
  2: { apply bytes_check. vm_compute. reflexivity. }
  destruct (algorithms_fs bs al FM) as (fs & F1 & F2). eexists. exists na, bs, al, fs.
  split; [vm_compute; reflexivity|]. split; [reflexivity|]. split; [|split; [|split; [exact FM|split; [exact F1|split; [exact F2|]]]]].
  - destruct (requester_next_request (driven_R 2) (repeat 7%N 32) big_buf) as [[r buf'] R1] eqn:EN.
    assert (OK : match r with Ok _ => True | _ => False end).
    { replace r with (fst (fst (requester_next_request (driven_R 2) (repeat 7%N 32) big_buf))) by (now rewrite EN). vm_compute. exact I. }
    destruct r as [out|e|p]; try tauto. cbn [snd] in E. destruct (req_state R1) as [st|] eqn:ES; [|discriminate].
    cbn [option_map] in E. injection E as E. destruct st as [| |s|s|s|s|]; try discriminate E. exists out, buf', R1, s.
    refine (conj eq_refl (conj ES E)).
  - exists rest. rewrite <- app_assoc, <- EB. reflexivity.
  - intros (_ & (i & B1 & B2) & _). rewrite A1 in B2. rewrite N1 in B1.
    assert (i = 4%N). { apply N.bits_inj_iff in B2. change 16%N with (2 ^ 4)%N in B1. rewrite N.pow2_bits_eqb in B1. apply N.eqb_eq in B1. auto. }
    subst i. discriminate.
Qed.
Example C34_example : highest_common [mkVE 1 1 0 0; mkVE 1 2 0 0; mkVE 1 0 0 0]%N (mkVE 1 1 0 0)%N /\
  starts_with ([0x10; 0x04]%N ++ version_body [mkVE 1 0 0 0; mkVE 1 1 0 0]%N) (sample_response 0) /\
  requester_handle_msg sample_q0 ([0x10; 0x04]%N ++ version_body [mkVE 1 2 0 0; mkVE 2 0 0 0]%N) =
    (Err (ReqNoSupportedVersions (mkVersion 2 [mkVE 1 2 0 0; mkVE 2 0 0 0])), mkRequester [1; 2; 3] transcript_new (Some ReqError))%N.
Proof.
  split; [|split].
  - split; [simpl; auto|]. split; [simpl; auto|]. intros w _ [<-|[<-|[]]]; vm_compute; discriminate.
  - exists []. vm_compute. reflexivity.
  - vm_compute. reflexivity.
Qed.
Example C37_example : exists al, selected (driven_ev 6) al /\ sig_len (al_base_asym al) = Some 64 /\ length (events_log 64 (driven_ev 6)) = 415.
Proof.
  eexists. split; [apply sample_selected; [split; apply Nat.leb_le; reflexivity|vm_compute; reflexivity]|]. split; vm_compute; reflexivity.
Qed.
(** The hypotheses of C38 together, on the sample run. *)
Example C38_example : req_setting /\ req_session [1; 2; 3]%N (driven_ev 5) (driven_R 5) /\ fresh_ok (repeat 7%N 32) /\
  bytes (sample_response 5) /\
  exists out buf' R1 R2, requester_next_request (driven_R 5) (repeat 7%N 32) big_buf = (Ok out, buf', R1) /\
    requester_handle_msg R1 (sample_response 5) = (Ok true, R2) /\ code (sample_response 5) = 0x03%N.
Proof.
  destruct C36_example as (H & _ & _ & X).
  refine (conj sample_req_setting (conj H (conj (conj eq_refl _) (conj (response_bytes 5) X)))). apply bytes_repeat. reflexivity.
Qed.
Example C41_example : exists R2, snd (driven 6) = R2 /\ req_state R2 = Some ReqNewSession /\
  fst (fst (requester_next_request R2 [] [1; 2; 3]%N)) = Err ReqInitializationComplete /\
  (** a wrong response: CAPABILITIES for VERSION *)
  req_state (snd (requester_handle_msg sample_q0 (sample_response 1))) = Some ReqError.
Proof. eexists. split; [reflexivity|]. split; [vm_compute; reflexivity|]. split; vm_compute; reflexivity. Qed.
