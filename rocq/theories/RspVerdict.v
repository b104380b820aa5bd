(** The responder's handlers against the checks of SpecVerdict. *)
From Verif Require Import Base BaseLemmas Config Encoding MsgCommon MsgVersion MsgCapabilities MsgAlgorithms MsgDigest
     MsgCertificates MsgChallenge MsgError Transcript Crypto Responder SpecWire SpecMsgs SpecResponder SpecVerdict FlagLemmas GramBasic GramAlg GramCert GramChal
     ReaderLogic PropTools PropTranscript PropVersionCaps PropAlg PropCerts PropChal PropGeneric PropTables RspParts RspStep RspPanic VerdictLogic.
From Verif Require SpecFaults PropFaults SpecWriteFaults PropWriteFaults.

#[local] Opaque chain_bytes.
#[local] Arguments Nat.leb : simpl never.
#[local] Arguments Nat.ltb : simpl never.

(** A parser's error is the one its table names. *)
Lemma fault_reported {E F A} (parse : list N -> res E A) table (f : E -> F) buf e :
  PropFaults.reports parse table -> bytes buf -> parse buf = Err e -> fault_of f (table buf) (f e).
Proof.
  intros R HB E1. destruct (R buf HB) as ((v & FF) & EN). pose proof (EN v FF) as X. rewrite E1 in X.
  destruct v as [|why|]; try destruct X. exists why, e. split; [exact FF|]. split; [exact X|reflexivity].
Qed.

Section Verdict.
Context {cfg : Config} {cr : Crypto}.

Lemma digest_size_cases {E} h : (In h [1; 2; 4; 8; 16; 32]%N /\ hash_len h <= MAX_DIGEST_SIZE /\ @get_digest_size cfg E h = Ok (hash_len h)) \/
  (~ (In h [1; 2; 4; 8; 16; 32]%N /\ hash_len h <= MAX_DIGEST_SIZE) /\ exists p, @get_digest_size cfg E h = Panic p).
Proof.
  assert (X : In h [1; 2; 4; 8; 16; 32]%N -> @get_digest_size cfg E h = digest_size (hash_len h)).
  { intros HI. simpl in HI. repeat destruct HI as [<-|HI]; try reflexivity. destruct HI. }
  destruct (in_dec N.eq_dec h [1; 2; 4; 8; 16; 32]%N) as [HI|HI].
  - rewrite (X HI). unfold digest_size. destruct (Nat.leb_spec (hash_len h) MAX_DIGEST_SIZE) as [L|L]; [left; auto|right].
    split; [lia|eauto].
  - right. split; [tauto|]. unfold get_digest_size, SHA_256, SHA_384, SHA_512, SHA3_256, SHA3_384, SHA3_512. simpl in HI.
    repeat match goal with |- context [(h =? ?k)%N] => destruct (N.eqb_spec h k); [intuition congruence|] end. cbn [orb]. eauto.
Qed.
Lemma sig_size_cases {E} a : (exists ss, sig_len a = Some ss /\ ss <= MAX_SIGNATURE_SIZE /\ @get_signature_size cfg E a = Ok ss) \/
  (~ (exists ss, sig_len a = Some ss /\ ss <= MAX_SIGNATURE_SIZE) /\ exists p, @get_signature_size cfg E a = Panic p).
Proof.
  destruct (@get_signature_size cfg E a) as [ss|e|p] eqn:E1.
  - left. exists ss. apply sig_size_inv in E1 as [A B]. auto.
  - exfalso. unfold get_signature_size, signature_size in E1.
    repeat match type of E1 with context [if ?b then _ else _] => destruct b end; discriminate.
  - right. split; [|eauto]. intros (ss & A & B). rewrite (sig_size_of _ _ A) in E1. unfold signature_size in E1.
    destruct (Nat.leb_spec ss MAX_SIGNATURE_SIZE); [discriminate|lia].
Qed.

Lemma c_extend_full bs c : t_wf (c_tr c) -> TRANSCRIPT_SIZE < length (t_get (c_tr c)) + length bs ->
  exists c1, c_extend bs c = (Err RspBufferFull, c1).
Proof.
  intros W L. rewrite t_get_length in L by auto. unfold c_extend, map_err. rewrite (proj2 (t_extend_spec (c_tr c) bs W) L). eexists. reflexivity.
Qed.
Lemma c_write_full {E} (from : E -> ResponderError) w F enc c : writes_exactly w F enc -> length (c_rsp c) < length enc ->
  exists e c1, F e /\ c_write from w c = (Err (from e), c1).
Proof. intros W L. unfold c_write. destruct (proj2 (W (c_rsp c)) L) as (e & k & HF & _ & ->). eexists _, _. split; [exact HF|reflexivity]. Qed.

Definition gives_full {E} (from : E -> ResponderError) (F : E -> Prop) : Prop := forall e, F e -> from e = RspBufferFull.
Lemma gives_full_eq : gives_full rsp_of_full (fun e => e = BufferFull). Proof. intros e _. reflexivity. Qed.
Lemma gives_full_is : gives_full rsp_of_full is_full. Proof. intros e _. reflexivity. Qed.

Lemma D_tail {E} (from : E -> ResponderError) wr FF out (st' : RspStates) c P : t_wf (c_tr c) -> writes_exactly wr FF out -> gives_full from FF ->
  (P <-> length out <= length (c_rsp c) /\ length (t_get (c_tr c)) + length out <= TRANSCRIPT_SIZE) ->
  D [(P, Refuse (is RspBufferFull))] (size <- c_write from wr ;; o <- c_prefix size ;; c_extend o ;;; ret (size, st')) c.
Proof.
  intros W WR GF IP. destruct (Nat.le_gt_cases (length out) (length (c_rsp c))) as [L1|L1].
  2: { destruct (c_write_full from _ _ _ c WR L1) as (e & c1 & HF & E1). rewrite (GF _ HF) in E1. eapply D_err; [|exact E1|reflexivity].
       rewrite IP. lia. }
  eapply D_ok; [exact (c_write_run from _ _ _ c WR L1)|].
  eapply D_ok; [apply c_prefix_run; cbn [c_rsp]; rewrite app_length; lia|]. cbn [c_rsp]. rewrite firstn_app_exact by reflexivity.
  destruct (Nat.le_gt_cases (length (t_get (c_tr c)) + length out) TRANSCRIPT_SIZE) as [L2|L2].
  - destruct (c_extend_run out (mkCtx (out ++ skipn (length out) (c_rsp c)) (c_tr c)) W L2) as (t' & E1 & _).
    eapply D_hold; [apply IP; auto|]. eapply D_ok; [exact E1|]. exists Answer. split; [constructor|exact I].
  - destruct (c_extend_full out (mkCtx (out ++ skipn (length out) (c_rsp c)) (c_tr c)) W L2) as (c1 & E1).
    eapply D_err; [|exact E1|reflexivity]. rewrite IP. lia.
Qed.
Lemma D_tail' {E} (from : E -> ResponderError) wr FF req out (st' : RspStates) c P : t_wf (c_tr c) -> writes_exactly wr FF out -> gives_full from FF ->
  (P <-> length out <= length (c_rsp c) /\ length (t_get (c_tr c)) + (length req + length out) <= TRANSCRIPT_SIZE) ->
  D [(P, Refuse (is RspBufferFull))] (size <- c_write from wr ;; c_extend req ;;; o <- c_prefix size ;; c_extend o ;;; ret (size, st')) c.
Proof.
  intros W WR GF IP. destruct (Nat.le_gt_cases (length out) (length (c_rsp c))) as [L1|L1].
  2: { destruct (c_write_full from _ _ _ c WR L1) as (e & c1 & HF & E1). rewrite (GF _ HF) in E1. eapply D_err; [|exact E1|reflexivity].
       rewrite IP. lia. }
  eapply D_ok; [exact (c_write_run from _ _ _ c WR L1)|].
  destruct (Nat.le_gt_cases (length (t_get (c_tr c)) + length req) TRANSCRIPT_SIZE) as [L3|L3].
  2: { destruct (c_extend_full req (mkCtx (out ++ skipn (length out) (c_rsp c)) (c_tr c)) W L3) as (c1 & E1).
       eapply D_err; [|exact E1|reflexivity]. rewrite IP. lia. }
  destruct (c_extend_run req (mkCtx (out ++ skipn (length out) (c_rsp c)) (c_tr c)) W L3) as (t1 & E1 & W1 & G1). cbn [c_tr c_rsp] in *.
  eapply D_ok; [exact E1|].
  eapply D_ok; [apply c_prefix_run; cbn [c_rsp]; rewrite app_length; lia|]. cbn [c_rsp]. rewrite firstn_app_exact by reflexivity.
  destruct (Nat.le_gt_cases (length (t_get t1) + length out) TRANSCRIPT_SIZE) as [L2|L2].
  - destruct (c_extend_run out (mkCtx (out ++ skipn (length out) (c_rsp c)) t1) W1 L2) as (t' & E2 & _). rewrite G1, app_length in L2.
    eapply D_hold; [apply IP; lia|]. eapply D_ok; [exact E2|]. exists Answer. split; [constructor|exact I].
  - destruct (c_extend_full out (mkCtx (out ++ skipn (length out) (c_rsp c)) t1) W1 L2) as (c1 & E2). rewrite G1, app_length in L2.
    eapply D_err; [|exact E2|reflexivity]. rewrite IP. lia.
Qed.

Variable slots : list (option FilledSlot).
Variable rnd : Rnd.
Variable req : list N.
Hypothesis Hreq : bytes req.

(** ... on the body of a request. *)
Lemma reported {E A} (parse : list N -> res E A) table (f : E -> ResponderError) a b rest e :
  req = [a; b] ++ rest -> PropFaults.reports parse table -> parse rest = Err e -> fault_of f (table (skipn 2 req)) (f e).
Proof.
  intros E0 R E1. replace (skipn 2 req) with rest by (rewrite E0; reflexivity).
  apply (fault_reported parse table f rest e R); [|exact E1]. exact (body_bytes req Hreq a b rest E0).
Qed.
(** A parser that never panics, on the body of a request. *)
Lemma D_parse {E A B} (parse : list N -> res E A) fmt (f : E -> ResponderError) (k : A -> H B) a b rest c (P : Prop) (why : ResponderError -> Prop) cs :
  req = [a; b] ++ rest -> parses_exactly parse fmt -> (forall p, parse rest <> Panic p) ->
  (P <-> exists bs m, starts_with ([a; b] ++ bs) req /\ fmt bs m) -> (forall e, parse rest = Err e -> why (f e)) ->
  (forall bs m r, rest = bs ++ r -> fmt bs m -> parse rest = Ok m -> P -> D cs (k m) c) ->
  D ((P, Refuse why) :: cs) (bind (map_err f (lift (parse rest))) k) c.
Proof.
  intros E0 PE NP IP HW HK. assert (HB : bytes rest) by (apply (body_bytes req Hreq a b); exact E0).
  destruct (parse rest) as [m|e|p] eqn:E1; [| |now destruct (NP p)].
  - pose proof E1 as E2. apply PE in E2; [|auto]. destruct E2 as (bs & r & E2 & FM).
    assert (HP : P) by (apply IP; exists bs, m; split; [exists r; rewrite E0, E2; now rewrite <- app_assoc|auto]).
    eapply D_hold; [exact HP|]. eapply D_ok; [apply map_err_lift_run; reflexivity|]. eapply HK; eauto.
  - eapply D_err with (e := f e) (c1 := c); [|reflexivity|now apply HW]. rewrite IP. intros (bs & m & (r & E2) & FM).
    rewrite E0, <- app_assoc in E2. apply app_inv_head in E2.
    assert (X : parse rest = Ok m) by (apply PE; [auto|]; rewrite E2; eauto). congruence.
Qed.
(** ... and what it says is unique. *)
Lemma parse_unique {E A} (parse : list N -> res E A) fmt a b rest m bs' m' : req = [a; b] ++ rest -> parses_exactly parse fmt ->
  parse rest = Ok m -> starts_with ([a; b] ++ bs') req -> fmt bs' m' -> m' = m.
Proof.
  intros E0 PE E1 (r & E2) FM. assert (HB : bytes rest) by (apply (body_bytes req Hreq a b); exact E0).
  rewrite E0, <- app_assoc in E2. apply app_inv_head in E2.
  assert (X : parse rest = Ok m') by (apply PE; [auto|]; rewrite E2; eauto). congruence.
Qed.

Lemma D_version c : t_wf (c_tr c) -> 2 < length req -> starts_with [version_of KGetVersion; code_of KGetVersion] req ->
  D (version_checks req (length (c_rsp c))) (version_handle_msg req) c.
Proof.
  intros W L SH. pose proof (header_true req KGetVersion L SH) as HH. destruct SH as (rest & E0).
  eapply D_eq with (c' := c) (m' := handle_get_version req). { unfold version_handle_msg. change GetVersion_id with (id_of KGetVersion). now rewrite HH. }
  unfold handle_get_version. eapply D_eq; [exact (body_run req Hreq _ _ _ _ _ E0)|].
  eapply D_parse; [exact E0|exact C07_get_version_parse|intros p; apply (nopanic_of _ _ rspec_get_version); exact (body_bytes req Hreq _ _ _ E0)| |intros e E9; exact (reported _ _ RspRead _ _ _ _ E0 PropFaults.C73_get_version E9)|].
  { split; [intros SW; exists [0;0]%N, tt; split; [exact SW|reflexivity]|]. intros (bs & m & SW & ->). exact SW. }
  intros bs m r E2 FM E3 _. eapply D_ok; [reflexivity|]. destruct (t_clear_spec (c_tr c) W) as (W1 & G2 & _).
  destruct (Nat.le_gt_cases (length req) TRANSCRIPT_SIZE) as [L3|L3].
  - destruct (c_extend_run req (mkCtx (c_rsp c) (t_clear (c_tr c))) W1) as (t1 & X1 & W2 & G3). { cbn [c_tr]. rewrite G2. exact L3. }
    eapply D_ok; [exact X1|]. eapply (D_tail _ _ is_full version_reply); [exact W2|exact version_default_writes|exact gives_full_is|].
    cbn [c_tr c_rsp] in *. rewrite G3, G2. reflexivity.
  - destruct (c_extend_full req (mkCtx (c_rsp c) (t_clear (c_tr c))) W1) as (c1 & X1). { cbn [c_tr]. rewrite G2. exact L3. }
    eapply D_err; [|exact X1|reflexivity]. lia.
Qed.

(** Past the header. *)
Lemma D_expect k rest c cs : 2 < length req -> starts_with [version_of k; code_of k] req -> code_of k <> 0x84%N ->
  D cs rest c -> D cs (reset_on_get_version req (lift (rsp_expect (id_of k) req) ;;; rest)) c.
Proof.
  intros L SH NC HD. eapply D_eq; [exact (not_reset req k _ c L SH NC)|]. eapply D_ok; [exact (expect_true req k c L SH)|exact HD].
Qed.
Lemma D_extend {B} (k : unit -> H B) c (P : Prop) cs : t_wf (c_tr c) -> (P <-> fits_log (t_get (c_tr c)) (length req)) ->
  (forall t1, t_wf t1 -> t_get t1 = t_get (c_tr c) ++ req -> P -> D cs (k tt) (mkCtx (c_rsp c) t1)) ->
  D ((P, Refuse (is RspBufferFull)) :: cs) (bind (c_extend req) k) c.
Proof.
  intros W IP HK. destruct (Nat.le_gt_cases (length (t_get (c_tr c)) + length req) TRANSCRIPT_SIZE) as [L|L].
  - destruct (c_extend_run req c W L) as (t1 & X1 & W1 & G1). eapply D_hold; [apply IP; exact L|]. eapply D_ok; [exact X1|].
    apply HK; auto. apply IP. exact L.
  - destruct (c_extend_full req c W L) as (c1 & X1). eapply D_err; [|exact X1|reflexivity]. rewrite IP. unfold fits_log. lia.
Qed.

Lemma own_caps : (exists own, config_to_capabilities_msg = Ok (mkCapabilities 12 own) /\ forall name, In name CAPABILITIES -> RspFlags_from_str name <> None) \/
  (config_to_capabilities_msg = Err RspParseCapability /\ ~ forall name, In name CAPABILITIES -> RspFlags_from_str name <> None).
Proof.
  unfold config_to_capabilities_msg. generalize CAPABILITIES 0%N. intros l. induction l as [|x l IH]; intros fl; simpl.
  - left. exists fl. split; [reflexivity|]. intros ? [].
  - destruct (RspFlags_from_str x) as [f|] eqn:E1.
    + destruct (IH (N.lor fl f)) as [(own & E2 & HA)|(E2 & HN)].
      * left. exists own. split; [exact E2|]. intros name [<-|HI]; [congruence|auto].
      * right. split; [exact E2|]. intros HA. apply HN. intros name HI. auto.
    + right. split; [reflexivity|]. intros HA. apply (HA x); auto.
Qed.
Lemma D_capabilities s c : t_wf (c_tr c) -> 2 < length req -> starts_with [version_of KGetCapabilities; code_of KGetCapabilities] req ->
  D (capabilities_checks req (length (c_rsp c)) (t_get (c_tr c))) (capabilities_handle_msg s req) c.
Proof.
  intros W L SH. unfold capabilities_handle_msg. change GetCapabilities_id with (id_of KGetCapabilities).
  apply D_expect; [exact L|exact SH|discriminate|]. destruct SH as (rest & E0).
  eapply D_eq; [exact (body_run req Hreq _ _ _ _ _ E0)|].
  eapply D_parse; [exact E0|exact C08_get_capabilities_parse|intros p; apply (nopanic_of _ _ rspec_get_capabilities); exact (body_bytes req Hreq _ _ _ E0)| |intros e E9; exact (reported _ _ RspParseGetCapabilities _ _ _ _ E0 PropFaults.C73_get_capabilities E9)|].
  { split.
    - intros (ct & flags & SW & OB). exists (capabilities_layout ct flags), (mkGetCapabilities ct flags). auto.
    - intros (bs & m & SW & OB & ->). exists (gc_ct_exponent m), (gc_flags m). split; auto. }
  intros bs m r E2 FM E3 _. apply D_extend; [exact W|reflexivity|]. intros t1 W1 G1 _.
  destruct own_caps as [(own & E4 & HA)|(E4 & HN)].
  - eapply D_hold; [exact HA|]. eapply D_ok; [apply lift_run; exact E4|].
    eapply D_eq with (c' := mkCtx (c_rsp c) t1); [|eapply (D_tail rsp_of_full _ (fun e => e = BufferFull) _ (RspAlgorithms (mkRspAlg (gc_ct_exponent m) (gc_flags m) 12 own None)));
      [exact W1|exact (C08_capabilities_write (mkCapabilities 12 own))|exact gives_full_eq|]].
    + reflexivity.
    + unfold fits, fits_log. cbn [c_tr c_rsp]. rewrite G1, (app_length (t_get (c_tr c))).
      match goal with |- context [length (?a ++ capabilities_layout ?b ?d)] => change (length (a ++ capabilities_layout b d)) with 12 end. lia.
  - eapply D_err; [exact HN|unfold lift; rewrite E4; reflexivity|reflexivity].
Qed.

Lemma asks_algorithms_parse na es rest : req = [0x11; 0xE3]%N ++ rest -> asks_algorithms req na es ->
  negotiate_algorithms_parse_body rest = Ok na.
Proof.
  intros E0 (body & (r & E1) & FM & _). assert (HB : bytes rest) by (apply (body_bytes req Hreq 0x11%N 0xE3%N); exact E0).
  rewrite E0, <- app_assoc in E1. apply app_inv_head in E1. apply C09_negotiate_parse; [auto|]. rewrite E1. eauto.
Qed.
Lemma D_algorithms s c : t_wf (c_tr c) -> 2 < length req -> starts_with [version_of KNegotiate; code_of KNegotiate] req ->
  D (algorithms_checks req (length (c_rsp c)) (t_get (c_tr c))) (algorithms_handle_msg s req) c.
Proof.
  intros W L SH. unfold algorithms_handle_msg. change NegotiateAlgorithms_id with (id_of KNegotiate).
  apply D_expect; [exact L|exact SH|discriminate|]. destruct SH as (rest & E0).
  eapply D_eq; [exact (body_run req Hreq _ _ _ _ _ E0)|].
  eapply D_parse; [exact E0|exact C09_negotiate_parse|intros p; apply (nopanic_of _ _ rspec_negotiate); exact (body_bytes req Hreq _ _ _ E0)| |intros e E9; exact (reported _ _ RspParseNegotiateAlgorithms _ _ _ _ E0 PropFaults.C73_negotiate_algorithms E9)|].
  { split.
    - intros (na & es & body & SW & FM & _). exists body, na. auto.
    - intros (bs & m & SW & FM). destruct (@choose_spec cfg unit bs m FM) as (es & N1 & A1 & _). exists m, es, bs. auto. }
  intros bs na r E2 FM E3 _. apply D_extend; [exact W|reflexivity|]. intros t1 W1 G1 _.
  destruct (@choose_spec cfg ResponderError bs na FM) as (es & N1 & A1 & CH).
  assert (AS : asks_algorithms req na es).
  { exists bs. split; [|auto]. exists r. rewrite E0, E2. reflexivity. }
  assert (UQ : forall na' es', asks_algorithms req na' es' -> na' = na /\ es' = es).
  { intros na' es' A. assert (na' = na) as -> by (pose proof (asks_algorithms_parse na' es' rest E0 A); congruence). split; [auto|].
    destruct A as (_ & _ & _ & N2 & A2). eapply alg_array_unique; [|exact A2|exact A1]. lia. }
  destruct CH as [(al & fs & C1 & C2 & _)|((q & C1) & EO & OC)].
  - assert (LF : length fs = length es) by (destruct C2 as (_ & _ & _ & _ & F2 & _); symmetry; exact (Forall2_len _ _ _ F2)).
    eapply D_hold.
    { destruct overflow_checks eqn:OC; [right|auto]. exists na, es. split; [auto|]. eapply chosen_not_empty; eauto. }
    eapply D_ok; [apply lift_run; exact C1|]. pose proof C2 as (_ & _ & N2 & [N3 N4] & _).
    eapply D_eq with (c' := mkCtx (c_rsp c) t1); [|eapply (D_tail rsp_of_full _ (fun e => e = BufferFull) _
        (RspIdAuth (mkRspId (ra_requester_ct s) (ra_requester_cap s) (ra_responder_ct s) (ra_responder_cap s) al)));
      [exact W1|exact (proj1 (C10_algorithms_write al fs _ N2 N4))|exact gives_full_eq|]].
    + reflexivity.
    + unfold fits, fits_log. cbn [c_tr c_rsp]. rewrite G1, (app_length (t_get (c_tr c))).
      rewrite (proj2 (C10_algorithms_write al fs _ N2 N4)).
      rewrite LF. split.
      * intros (na' & es' & A & X). destruct (UQ _ _ A) as [-> ->]. lia.
      * intros X. exists na, es. split; [auto|]. lia.
  - eapply D_pan; [|unfold lift; rewrite C1; reflexivity]. intros [X|(na' & es' & A & X)]; [congruence|].
    destruct (UQ _ _ A) as [-> ->]. auto.
Qed.

Hypothesis Hslots : length slots = NUM_SLOTS.
Hypothesis H8 : NUM_SLOTS <= 8.
Hypothesis HC : hash_contract.
Let chains := map (option_map fs_chain) slots.
(** * Hashing all chains *)
Definition emptyo (o : option CertificateChain) : Prop := o = None.
Lemma hc_skip h pre : Forall emptyo pre -> forall post buf, hash_cert_chains h (pre ++ post) buf =
  match hash_cert_chains h post buf with Ok ds => Ok (repeat None (length pre) ++ ds) | Err e => Err e | Panic p => Panic p end.
Proof.
  induction 1 as [|o pre E1 _ IH]; intros post buf; simpl.
  - destruct (hash_cert_chains h post buf); reflexivity.
  - red in E1. subst o. simpl. rewrite IH. destruct (hash_cert_chains h post buf); reflexivity.
Qed.
Lemma hc_first_unfit h c post buf : length buf = MAX_CERT_CHAIN_SIZE -> ~ chain_fits c ->
  hash_cert_chains h (Some c :: post) buf = Err (chain_error c).
Proof. intros L F. simpl. destruct (chain_write_error c buf L F) as (b' & ->). reflexivity. Qed.
Lemma hc_unusable h c post buf : length buf = MAX_CERT_CHAIN_SIZE -> chain_fits c -> ~ hash_usable h ->
  exists p, hash_cert_chains h (Some c :: post) buf = Panic p.
Proof.
  intros L F U. simpl. rewrite chain_write_fits by auto. cbn [rmap_err rbind]. rewrite app_length.
  destruct (Nat.ltb_spec (length (chain_bytes c) + length (skipn (length (chain_bytes c)) buf)) (length (chain_bytes c))); [lia|].
  destruct (@digest_unusable cfg cr ResponderError h (firstn (length (chain_bytes c)) (chain_bytes c ++ skipn (length (chain_bytes c)) buf)) HC U) as (p & ->).
  eexists. reflexivity.
Qed.
Lemma hc_unfit h c0 post : hash_usable h -> ~ chain_fits c0 -> forall pre buf, length buf = MAX_CERT_CHAIN_SIZE ->
  (forall c, In (Some c) pre -> chain_fits c) -> hash_cert_chains h (pre ++ Some c0 :: post) buf = Err (chain_error c0).
Proof.
  intros U F0. induction pre as [|[c|] l IH]; intros buf L HP; cbn [app].
  - now apply hc_first_unfit.
  - assert (F : chain_fits c) by (apply HP; left; reflexivity).
    assert (E1 := IH (chain_bytes c ++ skipn (length (chain_bytes c)) buf)).
    specialize (E1 ltac:(destruct F as [F _]; rewrite app_length, skipn_length; lia) ltac:(intros c1 H1; apply HP; right; exact H1)).
    simpl. rewrite chain_write_fits by auto. cbn [rmap_err rbind]. rewrite app_length.
    destruct (Nat.ltb_spec (length (chain_bytes c) + length (skipn (length (chain_bytes c)) buf)) (length (chain_bytes c))); [lia|].
    rewrite firstn_app_exact by reflexivity. rewrite (digest_usable _ _ HC U). cbn [rbind].
    unfold digest_size. pose proof U as (_ & S2 & LD). rewrite (proj1 (HC h (chain_bytes c) S2)).
    destruct (Nat.leb_spec (hash_len h) MAX_DIGEST_SIZE); [|lia]. cbn [rbind]. rewrite E1. reflexivity.
  - assert (E1 := IH buf L ltac:(intros c1 H1; apply HP; right; exact H1)). simpl. rewrite E1. reflexivity.
Qed.
Lemma first_filled (l : list (option CertificateChain)) : Forall emptyo l \/ exists pre c post, l = pre ++ Some c :: post /\ Forall emptyo pre.
Proof.
  induction l as [|[c|] l IH]; [left; constructor| |].
  - right. exists [], c, l. split; [reflexivity|constructor].
  - destruct IH as [F|(pre & c & post & -> & F)]; [left; constructor; [reflexivity|auto]|].
    right. exists (None :: pre), c, post. split; [reflexivity|]. constructor; [reflexivity|auto].
Qed.
Lemma filled_in c : In (Some c) chains <-> exists i, slot_chain slots i = Some c.
Proof.
  split.
  - intros HI. apply In_nth_error in HI as (i & Hi). exists i. now apply slot_chain_map.
  - intros (i & Hi). apply slot_chain_map in Hi. eapply nth_error_In; eauto.
Qed.
Lemma none_filled : Forall emptyo chains <-> forall i, ~ filled slots i.
Proof.
  rewrite Forall_forall. split.
  - intros H i (c & Hc). assert (HI : In (Some c) chains) by (apply filled_in; eauto). discriminate (H _ HI).
  - intros H [c|] HI; [|reflexivity]. apply filled_in in HI as (i & Hi). destruct (H i). exists c. exact Hi.
Qed.
(** A mask with the bits of the filled slots has as many bits. *)
Lemma mask_count mask : (forall i, slot_in_mask mask i = true <-> exists c, slot_chain slots i = Some c) ->
  length (filter (slot_in_mask mask) (seq 0 (length slots))) = occupied slots.
Proof.
  intros MK. unfold occupied.
  assert (Y : forall (l : list (option FilledSlot)) k, (forall i, slot_in_mask mask (k + i) = true <-> exists f, nth_error l i = Some (Some f)) ->
     length (filter (slot_in_mask mask) (seq k (length l))) = length (filter (fun o : option FilledSlot => match o with Some _ => true | None => false end) l)).
  { induction l as [|o l IH]; intros k HM; [reflexivity|]. cbn [length seq filter]. pose proof (HM 0) as H0. rewrite Nat.add_0_r in H0. simpl in H0.
    assert (HM' : forall i, slot_in_mask mask (S k + i) = true <-> exists f, nth_error l i = Some (Some f)).
    { intros i. specialize (HM (S i)). rewrite <- Nat.add_succ_comm in HM. exact HM. }
    specialize (IH (S k) HM'). destruct o as [f|].
    - destruct (slot_in_mask mask k) eqn:E1; [cbn [length]; now rewrite IH|]. destruct H0 as [_ H0]. discriminate H0. eauto.
    - destruct (slot_in_mask mask k) eqn:E1; [|exact IH]. destruct H0 as [H0 _]. destruct (H0 eq_refl) as (f & [=]). }
  apply (Y slots 0). intros i. cbn [Nat.add]. rewrite MK. unfold slot_chain. destruct (nth_error slots i) as [[f|]|]; split; intros (x & Hx); try discriminate; eauto.
Qed.
Lemma digests_length h mask : mask_of_slots slots mask -> Forall (chain_good h) chains ->
  length ([0x11; 0x01]%N ++ digests_layout NUM_SLOTS mask (slot_chain_digest h slots)) = 4 + hash_len h * occupied slots.
Proof.
  intros [_ MK] HF. unfold digests_layout. rewrite !app_length. cbn [length zeros repeat Nat.add]. do 4 f_equal.
  assert (X : forall l, (forall i, In i l -> i < NUM_SLOTS) -> length (concat (map (slot_chain_digest h slots) (filter (slot_in_mask mask) l))) =
     hash_len h * length (filter (slot_in_mask mask) l)).
  { induction l as [|i l IH]; intros HL; [simpl; lia|]. cbn [filter]. destruct (slot_in_mask mask i) eqn:E1; [|apply IH; intros; apply HL; right; auto].
    cbn [map concat length]. rewrite app_length, IH by (intros; apply HL; right; auto).
    apply MK in E1 as (c & Hc). destruct (proj1 (chains_good slots h) HF i c Hc) as [_ (_ & S2 & _)].
    unfold slot_chain_digest. rewrite (proj1 (HC h _ S2)). lia. }
  rewrite X by (intros i Hi; apply in_seq in Hi; lia). f_equal. rewrite <- Hslots. now apply mask_count.
Qed.

Lemma D_digests s c : t_wf (c_tr c) -> 2 < length req -> starts_with [version_of KGetDigests; code_of KGetDigests] req ->
  D (digests_checks slots req (length (c_rsp c)) (t_get (c_tr c)) (al_base_hash (ri_algorithms s))) (id_auth_handle_msg s chains req) c.
Proof.
  intros W L SH. unfold id_auth_handle_msg. eapply D_eq; [exact (not_reset req KGetDigests _ c L SH ltac:(discriminate))|].
  eapply D_ok; [apply map_err_lift_run; exact (header_true req KGetDigests L SH)|]. cbv iota. unfold handle_get_digests.
  assert (LZ : length (repeat 0%N MAX_CERT_CHAIN_SIZE) = MAX_CERT_CHAIN_SIZE) by apply repeat_length.
  destruct (@mask_ok_chains cfg ResponderError slots ltac:(lia)) as (mask & M1 & M2). fold chains in M1.
  eapply D_ok; [apply lift_run; exact M1|]. set (h := al_base_hash (ri_algorithms s)) in *.
  assert (GO : Forall (chain_good h) chains -> D [ (fits req (length (c_rsp c)) (t_get (c_tr c)) (4 + hash_len h * occupied slots), Refuse (is RspBufferFull)) ]
     (bind (lift (hash_cert_chains h chains (repeat 0%N MAX_CERT_CHAIN_SIZE))) (fun digests : list (option (list N)) =>
       size <- c_write rsp_of_full (write_msg Digests_id (fun e => e) (digests_write_body (mkDigests mask digests))) ;;
       c_extend req ;;; out <- c_prefix size ;; c_extend out ;;; ret (size, RspIdAuth s))) c).
  { intros HF. eapply D_ok; [apply lift_run; exact (hash_chains_ok h chains HC _ LZ HF)|].
    eapply D_tail'; [exact W|exact (digests_writes slots Hslots H8 HC h mask M2 HF)|exact gives_full_eq|].
    unfold fits, fits_log. rewrite (digests_length h mask M2 HF). reflexivity. }
  destruct (first_filled chains) as [NF|(pre & ch & post & EC & NF)].
  - pose proof (proj1 none_filled NF) as NF'.
    eapply D_hold; [intros i c0 Hi; destruct (NF' i); exists c0; exact Hi|].
    eapply D_hold; [right; exact NF'|].
    eapply D_hold; [intros i c0 Hi; destruct (NF' i); exists c0; exact Hi|].
    apply GO; auto. apply Forall_forall. intros o Ho. rewrite Forall_forall in NF. rewrite (NF o Ho). exact I.
  - assert (SC : slot_chain slots (length pre) = Some ch).
    { apply slot_chain_map. fold chains. rewrite EC, nth_error_app2, Nat.sub_diag by lia. reflexivity. }
    assert (FF : forall j, j < length pre -> ~ filled slots j).
    { intros j Hj (c0 & H0). apply slot_chain_map in H0. fold chains in H0. rewrite EC, nth_error_app1 in H0 by lia.
      apply nth_error_In in H0. rewrite Forall_forall in NF. discriminate (NF _ H0). }
    destruct (chain_fits_dec ch) as [F|F].
    + eapply D_hold.
      { intros i c0 Hi Hf. assert (i = length pre) as ->.
        { destruct (Nat.lt_trichotomy i (length pre)) as [X|[X|X]]; [|exact X|].
          - destruct (FF i X). exists c0. exact Hi.
          - destruct (Hf _ X). exists ch. exact SC. }
        rewrite SC in Hi. injection Hi as <-. exact F. }
      destruct (hash_usable_dec h) as [U|U].
      * eapply D_hold; [left; exact U|].
        assert (DEC : (forall i c, slot_chain slots i = Some c -> chain_fits c) \/
          exists pre1 c post1, chains = pre1 ++ Some c :: post1 /\ ~ chain_fits c /\ forall c1, In (Some c1) pre1 -> chain_fits c1).
        { assert (X : forall l, (forall c, In (Some c) l -> chain_fits c) \/
            exists pre1 c post1, l = pre1 ++ Some c :: post1 /\ ~ chain_fits c /\ forall c1, In (Some c1) pre1 -> chain_fits c1).
          { clear. induction l as [|[c|] l IH]; [left; intros ? []| |].
            - destruct (chain_fits_dec c) as [F|F]; [|right; exists [], c, l; split; [reflexivity|split; [exact F|intros ? []]]].
              destruct IH as [IH|(p1 & c0 & q1 & -> & I2 & I3)]; [left; intros c0 [[= <-]|H]; auto|].
              right. exists (Some c :: p1), c0, q1. split; [reflexivity|split; [exact I2|]]. intros c1 [[= <-]|H]; auto.
            - destruct IH as [IH|(p1 & c0 & q1 & -> & I2 & I3)]; [left; intros c0 [[=]|H]; auto|].
              right. exists (None :: p1), c0, q1. split; [reflexivity|split; [exact I2|]]. intros c1 [[=]|H]; auto. }
          destruct (X chains) as [Y|Y]; [left|right; exact Y]. intros i c0 Hi. apply Y. apply filled_in. eauto. }
        destruct DEC as [AF|UF].
        -- eapply D_hold; [exact AF|]. apply GO; auto. apply chains_good. intros i c0 Hi. split; [eapply AF; eauto|exact U].
        -- destruct UF as (p1 & c0 & q1 & EC1 & I2 & I3). pose proof (hc_unfit h c0 q1 U I2 p1 _ LZ I3) as E1. rewrite <- EC1 in E1.
           assert (SC1 : slot_chain slots (length p1) = Some c0).
           { apply slot_chain_map. fold chains. rewrite EC1, nth_error_app2, Nat.sub_diag by lia. reflexivity. }
           eapply D_err; [|unfold lift; rewrite E1; reflexivity|].
           ++ intros AF. apply I2. eapply AF; eauto.
           ++ exists (length p1), c0. split; [exact SC1|]. split; [exact I2|]. split; [|reflexivity].
              intros j c1 Hj H1. apply slot_chain_map in H1. fold chains in H1. rewrite EC1, nth_error_app1 in H1 by lia.
              apply I3. eapply nth_error_In; eauto.
      * destruct (hc_unusable h ch post _ LZ F U) as (p & E1).
        eapply D_pan; [|unfold lift; rewrite EC, (hc_skip h pre NF), E1; reflexivity].
        intros [X|X]; [auto|]. destruct (X (length pre)). exists ch. exact SC.
    + pose proof (hc_first_unfit h ch post _ LZ F) as E1.
      eapply D_err; [|unfold lift; rewrite EC, (hc_skip h pre NF), E1; reflexivity|exists (length pre), ch; auto].
      intros X. apply F. exact (X _ _ SC FF).
Qed.

(** * GET_CERTIFICATE *)
Lemma asks_certificate_parse slot rest m : req = [0x11; 0x82]%N ++ rest -> get_certificate_parse_body rest = Ok m ->
  (asks_certificate req slot <-> slot = gcert_slot m).
Proof.
  intros E0 E1. split.
  - intros (off & len & SW & B1 & B2).
    rewrite <- (parse_unique get_certificate_parse_body _ _ _ rest m _ (mkGetCertificate slot off len) E0 C12_get_certificate_parse E1 SW);
      [reflexivity|]. auto.
  - intros ->. assert (HB : bytes rest) by (apply (body_bytes req Hreq 0x11%N 0x82%N); exact E0).
    apply C12_get_certificate_parse in E1; [|auto]. destruct E1 as (bs & r & E2 & B1 & B2 & ->).
    exists (gcert_offset m), (gcert_length m). split; [|auto]. exists r. rewrite E0, E2. now rewrite <- app_assoc.
Qed.
Lemma D_certificate s c : t_wf (c_tr c) -> 2 < length req -> starts_with [version_of KGetCertificate; code_of KGetCertificate] req ->
  D (certificate_checks slots req (length (c_rsp c)) (t_get (c_tr c))) (id_auth_handle_msg s chains req) c.
Proof.
  intros W L SH. unfold id_auth_handle_msg. eapply D_eq; [exact (not_reset req KGetCertificate _ c L SH ltac:(discriminate))|].
  assert (LZ : length (repeat 0%N MAX_CERT_CHAIN_SIZE) = MAX_CERT_CHAIN_SIZE) by apply repeat_length.
  eapply D_ok.
  { apply map_err_lift_run. apply (proj2 (header_false KGetDigests req)). split; [exact L|]. destruct SH as (r & E0). rewrite E0. discriminate. }
  cbv iota. change GetCertificate_id with (id_of KGetCertificate). eapply D_ok; [exact (expect_true req KGetCertificate c L SH)|].
  destruct SH as (rest & E0). unfold handle_get_certificate.
  eapply D_eq; [exact (body_run req Hreq _ _ _ _ _ E0)|].
  eapply D_parse; [exact E0|exact C12_get_certificate_parse|intros p; apply (nopanic_of _ _ rspec_get_certificate); exact (body_bytes req Hreq _ _ _ E0)| |intros e E9; exact (reported _ _ RspRead _ _ _ _ E0 PropFaults.C73_get_certificate E9)|].
  { split.
    - intros (slot & off & len & SW & B1 & B2). exists (get_certificate_layout slot off len), (mkGetCertificate slot off len). auto.
    - intros (bs & m & SW & B1 & B2 & ->). exists (gcert_slot m), (gcert_offset m), (gcert_length m). auto. }
  intros bs m r E2 _ E3 _.
  assert (AS : forall slot, asks_certificate req slot <-> slot = gcert_slot m) by (intros; eapply asks_certificate_parse; eauto).
  assert (EX : forall Q : N -> Prop, (exists slot, asks_certificate req slot /\ Q slot) <-> Q (gcert_slot m)).
  { intros Q. split; [intros (slot & A & HQ); apply AS in A; now subst|]. intros HQ. exists (gcert_slot m). split; [now apply AS|auto]. }
  destruct (Nat.leb_spec NUM_SLOTS (N.to_nat (gcert_slot m))) as [GE|LS].
  { eapply D_err0; [rewrite EX; lia|reflexivity|reflexivity]. }
  eapply D_hold; [apply EX; exact LS|]. cbv zeta.
  assert (X : (forall c0, slot_chain slots (N.to_nat (gcert_slot m)) = Some c0 -> chain_fits c0) ->
      exists cc, firstn (length (slot_chain_bytes slots (N.to_nat (gcert_slot m)))) cc = slot_chain_bytes slots (N.to_nat (gcert_slot m)) /\
      (match nth_error chains (N.to_nat (gcert_slot m)) with
          | None => Panic PIndex
          | Some None => Ok (0%N, repeat 0%N MAX_CERT_CHAIN_SIZE)
          | Some (Some c) =>
            let '(w, buf) := chain_write_to (repeat 0%N MAX_CERT_CHAIN_SIZE) c in
            rbind (rmap_err RspWriteCertChain w) (fun n => Ok ((N.of_nat n mod 65536)%N, buf))
       end) = Ok (N.of_nat (length (slot_chain_bytes slots (N.to_nat (gcert_slot m)))), cc)).
  { intros HF. unfold slot_chain_bytes. destruct (slot_chain slots (N.to_nat (gcert_slot m))) as [ch|] eqn:E5.
    - pose proof E5 as E4. apply slot_chain_map in E4. fold chains in E4. rewrite E4.
      pose proof (HF ch eq_refl) as F. rewrite chain_write_fits by auto. cbn [rmap_err rbind].
      eexists. split; [|rewrite N.mod_small by apply F; reflexivity]. now apply firstn_app_exact.
    - pose proof (slot_none slots Hslots H8 _ LS E5) as EX'; fold chains in EX'; rewrite EX'. eexists. split; reflexivity. }
  assert (GO : (forall c0, slot_chain slots (N.to_nat (gcert_slot m)) = Some c0 -> chain_fits c0) -> 
     D [(exists slot, asks_certificate req slot /\ fits req (length (c_rsp c)) (t_get (c_tr c)) (8 + length (slot_chain_bytes slots (N.to_nat slot))), Refuse (is RspBufferFull))]
     ('(portion_length, cert_chain) <-
    lift (match nth_error chains (N.to_nat (gcert_slot m)) with
          | None => Panic PIndex
          | Some None => Ok (0%N, repeat 0%N MAX_CERT_CHAIN_SIZE)
          | Some (Some c) =>
            let '(w, buf) := chain_write_to (repeat 0%N MAX_CERT_CHAIN_SIZE) c in
            rbind (rmap_err RspWriteCertChain w) (fun n => Ok ((N.of_nat n mod 65536)%N, buf))
          end) ;;
     size <- c_write rsp_of_full (write_msg Certificate_id (fun e => e) (certificate_write_body (mkCertificate (gcert_slot m) portion_length 0 cert_chain))) ;;
     c_extend req ;;; out <- c_prefix size ;; c_extend out ;;; ret (size, RspChallenge s)) c).
  { intros HF. destruct (X HF) as (cc & X1 & X2). eapply D_ok; [apply lift_run; exact X2|]. cbv beta iota.
    eapply D_tail'; [exact W|eapply (C12_certificate_write (mkCertificate _ _ _ _)); [exact X1|reflexivity]|exact gives_full_eq|].
    rewrite EX. unfold fits, fits_log. cbn [cert_slot cert_remainder_length].
    match goal with |- context [length (?a ++ certificate_layout ?b ?p ?d)] =>
      replace (length (a ++ certificate_layout b p d)) with (8 + length p) by (unfold certificate_layout; rewrite !app_length; reflexivity) end.
    reflexivity. }
  destruct (slot_chain slots (N.to_nat (gcert_slot m))) as [ch|] eqn:E5.
  - destruct (chain_fits_dec ch) as [F|F].
    + eapply D_hold; [apply EX; rewrite E5; intros c0 [= <-]; exact F|]. apply GO. intros c0 [= <-]; exact F.
    + pose proof E5 as E4. apply slot_chain_map in E4. fold chains in E4.
      destruct (chain_write_error ch _ LZ F) as (b' & E6).
      eapply D_err; [|unfold lift; rewrite E4, E6; reflexivity|exists (gcert_slot m), ch; split; [now apply AS|split; [exact E5|reflexivity]]].
      rewrite EX, E5. intros HF. apply F. apply HF. reflexivity.
  - eapply D_hold; [apply EX; rewrite E5; discriminate|]. apply GO. discriminate.
Qed.

(** * CHALLENGE *)
Lemma asks_challenge_parse slot rest m : req = [0x11; 0x83]%N ++ rest -> challenge_parse_body rest = Ok m ->
  (asks_challenge req slot <-> slot = ch_slot m).
Proof.
  intros E0 E1. split.
  - intros (t & nonce & SW & NO).
    rewrite <- (parse_unique challenge_parse_body _ _ _ rest m _ (mkChallenge slot t nonce) E0 C14_challenge_parse E1 SW);
      [reflexivity|]. auto.
  - intros ->. assert (HB : bytes rest) by (apply (body_bytes req Hreq 0x11%N 0x83%N); exact E0).
    apply C14_challenge_parse in E1; [|auto]. destruct E1 as (bs & r & E2 & B1 & ->).
    exists (ch_measurement_hash_type m), (ch_nonce m). split; [|auto]. exists r. rewrite E0, E2. now rewrite <- app_assoc.
Qed.
Lemma auth_length s slot mask : rnd_ok rnd -> sha2 (al_base_hash (ri_algorithms s)) ->
  length (unsigned_auth s slots slot mask (wire_nonce (rnd_nonce rnd))) = auth_len (al_base_hash (ri_algorithms s)).
Proof.
  intros [R1 _] S2. unfold unsigned_auth, challenge_auth_layout, auth_len. rewrite !app_length.
  unfold slot_chain_digest. rewrite (proj1 (HC _ _ S2)). unfold zeros. rewrite repeat_length.
  assert (LN : length (wire_nonce (rnd_nonce rnd)) = if feature_rand then 32 else 0) by (unfold wire_nonce; destruct feature_rand; auto).
  rewrite LN. cbn [length u16le opaque_bytes]. change (length (opaque_bytes [])) with 4. lia.
Qed.
Lemma auth_unfit s slot mask ss f c : rnd_ok rnd -> nth_error slots (N.to_nat slot) = Some (Some f) -> sha2 (al_base_hash (ri_algorithms s)) ->
  length (c_rsp c) < auth_len (al_base_hash (ri_algorithms s)) + ss ->
  exists c1, c_write RspWriteChallengeAuth (write_challenge_auth (auth_of slots rnd s slot mask ss)) c =
    (Err (RspWriteChallengeAuth (auth_error (length (c_rsp c)) (auth_len (al_base_hash (ri_algorithms s))))), c1).
Proof.
  intros [R1 _] EN S2 L. set (h := al_base_hash (ri_algorithms s)) in *. unfold c_write.
  pose proof (PropWriteFaults.C74_challenge_auth_room (auth_of slots rnd s slot mask ss) (c_rsp c)) as T. cbv zeta in T.
  assert (LS : N.to_nat slot < NUM_SLOTS) by (rewrite <- Hslots; apply nth_error_Some; congruence).
  specialize (T LS (Forall_nil _) ltac:(unfold SpecWriteFaults.counted_sizes; cbn; lia)).
  assert (LN : length (nonce_new (rnd_nonce rnd)) = if feature_rand then 32 else 0) by (unfold nonce_new; destruct feature_rand; auto).
  unfold auth_of in T at 2 3 4 5 6 7 8 9 10 11 12 13 14 15 16 17.
  cbn [ca_cert_chain_hash ca_nonce ca_measurement_summary_hash ca_opaque_data ca_signature] in T. fold h in T.
  unfold slot_chain_digest in T. rewrite (proj1 (HC _ _ S2)), LN in T. unfold zeros in T. rewrite !repeat_length in T.
  change (SpecWriteFaults.written_sizes []) with 4 in T.
  destruct (write_challenge_auth (auth_of slots rnd s slot mask ss) (c_rsp c)) as [r b]. cbn [fst] in T. exists (mkCtx b (c_tr c)). f_equal.
  rewrite T. unfold auth_error. unfold auth_len in *. revert L. clear. generalize (if feature_rand then 32 else 0) as k, (hash_len h) as n, (length (c_rsp c)) as r0. intros.
  repeat match goal with |- context [?a <? ?b] => destruct (Nat.ltb_spec a b) | |- context [?a <=? ?b] => destruct (Nat.leb_spec a b) end; cbn [andb rmap_err]; try reflexivity; try lia.
Qed.
Lemma D_challenge s c : t_wf (c_tr c) -> rnd_ok rnd -> 2 < length req -> starts_with [version_of KChallenge; code_of KChallenge] req ->
  D (challenge_checks slots rnd req (length (c_rsp c)) (t_get (c_tr c)) s) (challenge_handle_msg s slots rnd req) c.
Proof.
  intros W RK L SH. unfold challenge_handle_msg. change Challenge_id with (id_of KChallenge).
  assert (LZ : length (repeat 0%N MAX_CERT_CHAIN_SIZE) = MAX_CERT_CHAIN_SIZE) by apply repeat_length.
  apply D_expect; [exact L|exact SH|discriminate|]. destruct SH as (rest & E0). cbv zeta. unfold challenge_checks. cbv zeta.
  set (h := al_base_hash (ri_algorithms s)) in *. set (al := al_base_asym (ri_algorithms s)) in *.
  destruct (@digest_size_cases ResponderError h) as [(HI & LH & ED)|(NH & p & ED)].
  2: { eapply D_pan; [exact NH|unfold lift; rewrite ED; reflexivity]. }
  eapply D_hold; [auto|]. eapply D_ok; [apply lift_run; exact ED|].
  destruct (@sig_size_cases ResponderError al) as [(ss & HS1 & HS2 & ES)|(NS & p & ES)].
  2: { eapply D_pan; [exact NS|unfold lift; rewrite ES; reflexivity]. }
  eapply D_hold; [eauto|]. eapply D_ok; [apply lift_run; exact ES|].
  assert (SR : forall Q : nat -> Prop, (exists ss', sig_len al = Some ss' /\ Q ss') <-> Q ss).
  { intros Q. split; [intros (ss' & A & B); congruence|eauto]. }
  eapply D_eq; [exact (body_run req Hreq _ _ _ _ _ E0)|].
  eapply D_parse; [exact E0|exact C14_challenge_parse|intros p; apply (nopanic_of _ _ rspec_challenge); exact (body_bytes req Hreq _ _ _ E0)| |intros e E9; exact (reported _ _ RspParseChallenge _ _ _ _ E0 PropFaults.C73_challenge E9)|].
  { split.
    - intros (slot & t & nonce & SW & NO). exists (challenge_layout slot t nonce), (mkChallenge slot t nonce). auto.
    - intros (bs & m & SW & NO & ->). exists (ch_slot m), (ch_measurement_hash_type m), (ch_nonce m). auto. }
  intros bs m r E2 _ E3 _.
  assert (AS : forall slot, asks_challenge req slot <-> slot = ch_slot m) by (intros; eapply asks_challenge_parse; eauto).
  destruct (nth_error slots (N.to_nat (ch_slot m))) as [[f|]|] eqn:EN.
  2,3: (eapply D_err; [|unfold lift, slot_get; rewrite EN; reflexivity|reflexivity];
        intros (slot & g & A & B); apply AS in A; subst slot; red in B; congruence).
  assert (SF : forall g, slot_filled slots (ch_slot m) g <-> g = f) by (intros g; unfold slot_filled; rewrite EN; split; congruence).
  eapply D_hold; [exists (ch_slot m), f; split; [now apply AS|now apply SF]|].
  eapply D_ok; [apply lift_run; unfold slot_get; rewrite EN; reflexivity|].
  destruct (chain_fits_dec (fs_chain f)) as [F|F].
  2: { destruct (chain_write_error (fs_chain f) _ LZ F) as (b' & E5).
       eapply D_err; [|unfold lift; rewrite E5; reflexivity|exists (ch_slot m), f; split; [now apply AS|split; [now apply SF|reflexivity]]].
       intros (slot & g & A & B & FG). apply AS in A; subst slot. apply SF in B. subst g. auto. }
  eapply D_hold; [exists (ch_slot m), f; split; [now apply AS|split; [now apply SF|auto]]|].
  rewrite chain_write_fits by auto. cbn [rmap_err rbind]. rewrite app_length.
  destruct (Nat.ltb_spec (length (chain_bytes (fs_chain f)) + length (skipn (length (chain_bytes (fs_chain f))) (repeat 0%N MAX_CERT_CHAIN_SIZE)))
            (length (chain_bytes (fs_chain f)))); [lia|]. rewrite firstn_app_exact by reflexivity.
  destruct (hash_usable_dec h) as [U|U].
  2: { destruct (@digest_unusable cfg cr ResponderError h (chain_bytes (fs_chain f)) HC U) as (p & E5).
       eapply D_pan; [exact U|unfold lift; rewrite E5; reflexivity]. }
  eapply D_hold; [exact U|]. eapply D_ok; [apply lift_run; exact (digest_usable _ _ HC U)|]. pose proof U as (_ & S2 & _).
  apply D_extend; [exact W|reflexivity|]. intros t1 W1 G1 _.
  destruct (@mask_ok cfg ResponderError slots ltac:(lia)) as (mask & M1 & M2).
  eapply D_ok; [apply lift_run; exact M1|]. rewrite mutual_eq.
  assert (EA : slot_chain_digest h slots (N.to_nat (ch_slot m)) = sha h (chain_bytes (fs_chain f))).
  { unfold slot_chain_digest, slot_chain_bytes, slot_chain. now rewrite EN. }
  eapply D_ok with (a := auth_of slots rnd s (ch_slot m) mask ss).
  { apply lift_run. unfold challenge_auth_new, digest_size, signature_size. rewrite (proj1 (HC _ _ S2)), !repeat_length.
    destruct (Nat.leb_spec (hash_len h) MAX_DIGEST_SIZE); [|lia].
    destruct (Nat.leb_spec ss MAX_SIGNATURE_SIZE); [|lia]. cbn [rbind]. unfold auth_of. fold h. rewrite EA. reflexivity. }
  pose proof (auth_writes slots rnd Hslots H8 HC s _ mask ss _ RK M2 EN S2) as WR.
  pose proof (auth_length s (ch_slot m) mask RK S2) as LU. fold h in LU.
  remember (unsigned_auth s slots (ch_slot m) mask (wire_nonce (rnd_nonce rnd))) as ua eqn:EUA.
  assert (LA : length (ua ++ zeros ss) = auth_len h + ss) by (rewrite app_length, LU; unfold zeros; now rewrite repeat_length).
  destruct (Nat.le_gt_cases (auth_len h + ss) (length (c_rsp c))) as [LR|LR].
  2: { destruct (auth_unfit s (ch_slot m) mask ss f (mkCtx (c_rsp c) t1) RK EN S2) as (c1 & E5); [cbn [c_rsp]; fold h; lia|].
       eapply D_err; [|exact E5|reflexivity]. rewrite SR. lia. }
  eapply D_hold; [apply SR; exact LR|]. eapply D_ok; [exact (c_write_run RspWriteChallengeAuth _ _ _ (mkCtx (c_rsp c) t1) WR ltac:(cbn [c_rsp]; lia))|].
  destruct (Nat.ltb_spec (length (ua ++ zeros ss)) ss) as [|_]; [lia|]. eapply D_ok; [reflexivity|].
  replace (length (ua ++ zeros ss) - ss) with (length ua) by lia.
  eapply D_ok; [apply c_prefix_run; cbn [c_rsp]; rewrite !app_length; lia|]. cbn [c_rsp c_tr].
  rewrite <- app_assoc, firstn_app_exact by reflexivity. rewrite app_assoc.
  set (c2 := mkCtx ((ua ++ zeros ss) ++ skipn (length (ua ++ zeros ss)) (c_rsp c)) t1).
  destruct (Nat.le_gt_cases (length (t_get (c_tr c)) + (length req + auth_len h)) TRANSCRIPT_SIZE) as [LT|LT].
  2: { destruct (c_extend_full ua c2 W1) as (c1 & E5); [unfold c2; cbn [c_tr]; rewrite G1, app_length; lia|].
       eapply D_err; [|exact E5|reflexivity]. unfold fits_log. lia. }
  eapply D_hold; [exact LT|].
  destruct (c_extend_run ua c2 W1) as (t2 & X2 & W3 & G3); [unfold c2; cbn [c_tr]; rewrite G1, app_length; lia|].
  eapply D_ok; [exact X2|]. eapply D_ok; [reflexivity|]. cbn [c_tr].
  assert (EG : t_get t2 = t_get (c_tr c) ++ req ++ ua) by (rewrite G3; unfold c2; cbn [c_tr]; rewrite G1; now rewrite <- app_assoc).
  rewrite EG. eapply D_ok; [apply lift_run; exact (digest_usable _ _ HC U)|].
  assert (SS : forall x, signer_says slots rnd req (t_get (c_tr c)) s x <-> fs_signer f (rnd_sign rnd) (sha h (t_get (c_tr c) ++ req ++ ua)) = x).
  { intros x. split.
    - intros (slot & g & mask' & A & B & MM & <-). apply AS in A; subst slot. apply SF in B. subst g.
      assert (mask' = mask) as -> by (eapply mask_unique; eauto). rewrite <- EUA. reflexivity.
    - intros <-. exists (ch_slot m), f, mask. split; [now apply AS|]. split; [now apply SF|]. split; [auto|]. rewrite <- EUA. reflexivity. }
  destruct (fs_signer f (rnd_sign rnd) (sha h (t_get (c_tr c) ++ req ++ ua))) as [sg|e|p] eqn:EF.
  - eapply D_hold; [intros e X; apply SS in X; discriminate|].
    eapply D_ok; [apply map_err_lift_run; reflexivity|].
    destruct (Nat.eq_dec (length sg) ss) as [LS|LS].
    + eapply D_hold; [apply SR; exists sg; split; [now apply SS|exact LS]|]. exists Answer. split; [constructor|].
      unfold bind, c_copy. cbn [c_rsp c_tr]. unfold c2; cbn [c_rsp].
      replace ((length ua <=? length (ua ++ zeros ss)) && (length (ua ++ zeros ss) <=? length ((ua ++ zeros ss) ++ skipn (length (ua ++ zeros ss)) (c_rsp c)))
        && (length sg =? length (ua ++ zeros ss) - length ua)) with true; [exact I|].
      symmetry. rewrite !andb_true_iff, Nat.eqb_eq, !Nat.leb_le. rewrite (app_length (ua ++ zeros ss)). lia.
    + eapply D_pan; [rewrite SR; intros (sg' & X & Y); apply SS in X; congruence|].
      unfold c_copy. cbn [c_rsp c_tr]. unfold c2; cbn [c_rsp].
      replace ((length ua <=? length (ua ++ zeros ss)) && (length (ua ++ zeros ss) <=? length ((ua ++ zeros ss) ++ skipn (length (ua ++ zeros ss)) (c_rsp c)))
        && (length sg =? length (ua ++ zeros ss) - length ua)) with false; [reflexivity|].
      symmetry. apply andb_false_iff. right. apply Nat.eqb_neq. lia.
  - eapply D_err; [|unfold map_err, lift; reflexivity|reflexivity]. intros X. apply (X e). now apply SS.
  - eapply D_hold; [intros e X; apply SS in X; discriminate|].
    eapply D_pan0; [rewrite SR; intros (sg' & X & Y); apply SS in X; discriminate|]. reflexivity.
Qed.

(** * Any state, any request *)
Lemma D_dispatch st c : t_wf (c_tr c) -> rnd_ok rnd ->
  D (checks slots rnd req (length (c_rsp c)) (t_get (c_tr c)) st) (rsp_dispatch st slots rnd req) c.
Proof.
  intros W RK. assert (SE : {st = RspError} + {st <> RspError}) by (destruct st; [left; reflexivity|right..]; discriminate).
  destruct SE as [->|NE].
  { eapply D_pan0; [auto|reflexivity]. }
  assert (EC : checks slots rnd req (length (c_rsp c)) (t_get (c_tr c)) st =
    [ (2 < length req, Crash);
      (In (code req) (map fst (accepts st)), Refuse (is (RspUnexpectedMsgCode (awaited st) (nth 0 req 0%N))));
      (In (code req, nth 0 req 0%N) (accepts st), Refuse (is RspParseHeader)) ] ++
    (if (code req =? 0x84)%N then version_checks req (length (c_rsp c))
     else match st with
     | RspCapabilities _ => capabilities_checks req (length (c_rsp c)) (t_get (c_tr c))
     | RspAlgorithms _ => algorithms_checks req (length (c_rsp c)) (t_get (c_tr c))
     | RspIdAuth s => if (code req =? 0x81)%N then digests_checks slots req (length (c_rsp c)) (t_get (c_tr c)) (al_base_hash (ri_algorithms s))
                      else certificate_checks slots req (length (c_rsp c)) (t_get (c_tr c))
     | RspChallenge s => challenge_checks slots rnd req (length (c_rsp c)) (t_get (c_tr c)) s
     | _ => []
     end)) by (destruct st; try reflexivity; congruence).
  rewrite EC. cbn [app]. clear EC.
  destruct (Nat.le_gt_cases (length req) 2) as [L|L].
  { assert (PH : forall k, parse_header (id_of k) req = Panic PAssert) by (intros k; now apply C20_short_panics).
    eapply D_pan0 with (p := PAssert) (c1 := c); [lia|].
    destruct st as [| |s|s|s|s]; cbn [rsp_dispatch]; unfold capabilities_handle_msg, algorithms_handle_msg, id_auth_handle_msg, challenge_handle_msg, reset_on_get_version, version_handle_msg;
     try (change GetVersion_id with (id_of KGetVersion); rewrite PH; reflexivity). congruence. }
  eapply D_hold; [exact L|].
  assert (NC : nth_error req 1 = Some (code req) /\ nth_error req 0 = Some (nth 0 req 0%N)).
  { destruct req as [|a [|b r]]; simpl in L; try lia. auto. }
  assert (SW : forall k, code req = code_of k -> nth 0 req 0%N = version_of k -> starts_with [version_of k; code_of k] req).
  { intros k A B. destruct req as [|a [|b r]]; simpl in L; try lia. cbv [code nth] in A, B. subst a b. exists r. reflexivity. }
  assert (HD : forall k, (code req = code_of k /\ nth 0 req 0%N = version_of k /\ parse_header (id_of k) req = Ok true) \/
    (code req = code_of k /\ nth 0 req 0%N <> version_of k /\ parse_header (id_of k) req = Err ParseHeaderErr) \/
    (code req <> code_of k /\ parse_header (id_of k) req = Ok false)).
  { intros k. destruct (C20_parse_header k req L) as (H1 & H2 & H3). destruct NC as [E1 E0]. rewrite E1, E0 in *.
    destruct (N.eq_dec (code req) (code_of k)) as [C|C]; [destruct (N.eq_dec (nth 0 req 0%N) (version_of k)) as [C'|C']|].
    - left. rewrite H1, C, C'. auto.
    - right. left. rewrite H2, C. repeat split; auto. congruence.
    - right. right. rewrite H3. split; [auto|congruence]. }
  assert (GV : In (0x84, 0x10)%N (accepts st)) by (destruct st; simpl; auto; congruence).
  destruct (N.eqb_spec (code req) 0x84) as [C84|N84].
  { (* GET_VERSION *)
    eapply D_hold; [rewrite C84; apply (in_map fst) in GV; exact GV|].
    destruct (HD KGetVersion) as [(A & B & PH)|[(A & B & PH)|(A & PH)]]; [| |destruct (A C84)].
    - eapply D_hold; [rewrite A, B; exact GV|]. eapply D_eq with (m' := version_handle_msg req) (c' := c).
      + destruct st as [| |s|s|s|s]; cbn [rsp_dispatch]; unfold capabilities_handle_msg, algorithms_handle_msg, id_auth_handle_msg, challenge_handle_msg, reset_on_get_version;
          try (change GetVersion_id with (id_of KGetVersion); rewrite PH); reflexivity || congruence.
      + apply D_version; auto.
    - eapply D_err0 with (c1 := c) (e := RspParseHeader); [|destruct st as [| |s|s|s|s]; cbn [rsp_dispatch];
          unfold capabilities_handle_msg, algorithms_handle_msg, id_auth_handle_msg, challenge_handle_msg, reset_on_get_version, version_handle_msg;
          try (change GetVersion_id with (id_of KGetVersion); rewrite PH); reflexivity || congruence|reflexivity].
      rewrite C84. intros X. apply B. change (version_of KGetVersion) with 0x10%N.
      destruct st; simpl in X; intuition congruence. }
  assert (PV : parse_header GetVersion_id req = Ok false).
  { destruct (HD KGetVersion) as [(A & _)|[(A & _)|(A & PH)]]; [destruct (N84 A)..|exact PH]. }
  (* states with one request of their own *)
  assert (ONE : forall k rest cs, accepts st = [(0x84, 0x10); (code_of k, version_of k)]%N -> awaited st = code_of k ->
     (starts_with [version_of k; code_of k] req -> D cs (reset_on_get_version req (lift (rsp_expect (id_of k) req) ;;; rest)) c) ->
     D ((In (code req) (map fst (accepts st)), Refuse (is (RspUnexpectedMsgCode (awaited st) (nth 0 req 0%N)))) ::
        (In (code req, nth 0 req 0%N) (accepts st), Refuse (is RspParseHeader)) :: cs) (reset_on_get_version req (lift (rsp_expect (id_of k) req) ;;; rest)) c).
  { intros k rest cs AC AW GO. rewrite AC, AW.
    assert (ER : forall e, rsp_expect (id_of k) req = Err e -> reset_on_get_version req (lift (rsp_expect (id_of k) req) ;;; rest) c = (Err e, c)).
    { intros e E1. unfold reset_on_get_version. rewrite PV. unfold bind, lift. now rewrite E1. }
    destruct (HD k) as [(A & B & PH)|[(A & B & PH)|(A & PH)]].
    - eapply D_hold; [rewrite A; simpl; auto|]. eapply D_hold; [rewrite A, B; simpl; auto|]. apply GO. auto.
    - eapply D_hold; [rewrite A; simpl; auto|]. eapply D_err0; [|apply ER; unfold rsp_expect; rewrite PH; reflexivity|reflexivity].
      simpl. intros [X|[X|[]]]; congruence.
    - eapply D_err0; [|apply ER; unfold rsp_expect; rewrite PH, (proj2 NC); reflexivity|destruct k; reflexivity].
      simpl. intros [X|[X|[]]]; congruence. }
  destruct st as [| |s|s|s|s]; cbn [rsp_dispatch].
  - congruence.
  - eapply D_err0 with (c1 := c); [simpl; intuition congruence|unfold version_handle_msg; rewrite PV, (proj2 NC); reflexivity|reflexivity].
  - apply (ONE KGetCapabilities); [reflexivity|reflexivity|]. intros SH. exact (D_capabilities s c W L SH).
  - apply (ONE KNegotiate); [reflexivity|reflexivity|]. intros SH. exact (D_algorithms s c W L SH).
  - destruct (N.eqb_spec (code req) 0x81) as [C81|N81].
    + eapply D_hold; [rewrite C81; simpl; auto|].
      destruct (HD KGetDigests) as [(A & B & PH)|[(A & B & PH)|(A & PH)]]; [| |destruct (A C81)].
      * eapply D_hold; [rewrite A, B; simpl; auto|]. apply D_digests; auto.
      * eapply D_err0 with (c1 := c) (e := RspParseHeader); [|unfold id_auth_handle_msg, reset_on_get_version; rewrite PV; unfold bind, map_err, lift;
          change GetDigests_id with (id_of KGetDigests); rewrite PH; reflexivity|reflexivity].
        rewrite C81. simpl. intros [X|[X|[X|[]]]]; simpl in *; congruence.
    + assert (PD : parse_header GetDigests_id req = Ok false).
      { destruct (HD KGetDigests) as [(A & _)|[(A & _)|(A & PH)]]; [destruct (N81 A)..|exact PH]. }
      assert (ER : forall e, rsp_expect GetCertificate_id req = Err e -> id_auth_handle_msg s (map (option_map fs_chain) slots) req c = (Err e, c)).
      { intros e E1. unfold id_auth_handle_msg, reset_on_get_version. rewrite PV. unfold bind, map_err, lift. rewrite PD, E1. reflexivity. }
      destruct (HD KGetCertificate) as [(A & B & PH)|[(A & B & PH)|(A & PH)]].
      * eapply D_hold; [rewrite A; simpl; auto|]. eapply D_hold; [rewrite A, B; simpl; auto|]. apply D_certificate; auto.
      * eapply D_hold; [rewrite A; simpl; auto|].
        eapply D_err0; [|apply ER; unfold rsp_expect; change GetCertificate_id with (id_of KGetCertificate); rewrite PH; reflexivity|reflexivity].
        rewrite A. simpl. intros [X|[X|[X|[]]]]; simpl in *; congruence.
      * eapply D_err0; [|apply ER; unfold rsp_expect; change GetCertificate_id with (id_of KGetCertificate); rewrite PH, (proj2 NC); reflexivity|reflexivity].
        simpl in *. intros [X|[X|[X|[]]]]; simpl in *; congruence.
  - apply (ONE KChallenge); [reflexivity|reflexivity|]. intros SH. exact (D_challenge s c W RK L SH).
Qed.
End Verdict.
