(** C89, C90: negotiation succeeds whenever both sides have something in common. *)
From Coq Require Import String.
From Verif Require Import Base BaseLemmas Config Encoding MsgCommon MsgVersion MsgCapabilities MsgAlgorithms MsgDigest
     MsgCertificates MsgChallenge MsgError Transcript Crypto Responder Requester ConfigBuild SpecWire SpecMsgs SpecResponder SpecRequester
     SpecAgree SpecFaults SpecVerdict SpecReqVerdict
     PropTools PropAlg RspParts RspStep VerdictLogic PropResponder PropRspState PropRspAns ReqStep PropRequester PropReqState PropReqPanic PropReqVerdict PropErrors PropAgree
     Sample SampleRun SampleReq.
Open Scope list_scope.

#[local] Opaque chain_bytes.
#[local] Arguments Nat.leb : simpl never.
Ltac row := apply holds_here; [first [reflexivity|simpl; lia]|].

Section Versions.
Context {cfg : Config} {cr : Crypto}.
Implicit Types es : list VersionEntry.

(** A VERSION message announces at most 255 versions. *)
Definition lists_versions (rsp : list N) es : Prop :=
  starts_with ([0x10; 0x04]%N ++ version_body es) rsp /\ Forall version_entry_ok es /\ List.length es < 256.

Lemma list_count rsp es es' : lists_versions rsp es -> says_versions rsp es' -> List.length es = List.length es'.
Proof.
  intros ((r & E) & _ & L) ((r' & E') & _ & L'). rewrite E in E'. unfold version_body in E'. apply (f_equal (fun l => nth 5 l 0%N)) in E'. cbn in E'. lia.
Qed.

(** Three versions or more are refused, whatever they are. *)
Theorem C89_too_many_refused root R rsp es : req_setting -> req_reached root R -> bytes rsp -> req_state R = Some ReqVersion ->
  lists_versions rsp es -> 2 < List.length es ->
  exists R', requester_handle_msg R rsp = (Err (ReqParseVersion TooManyVersionsReceived), R') /\ req_state R' = Some ReqError.
Proof.
  intros HS HR HB ST LV L.
  enough (X : exists R', requester_handle_msg R rsp = (Err (ReqParseVersion TooManyVersionsReceived), R')).
  { destruct X as (R' & X). exists R'. split; [exact X|]. unfold requester_handle_msg in X. rewrite ST in X.
    destruct (req_dispatch _ _ _ _) as [[st'|e|p] t']; [discriminate| |discriminate]. injection X as _ <-. reflexivity. }
  apply (C59_error_iff root R rsp ReqVersion _ HS HR HB ST).
  pose proof LV as ((r & E) & F & L2). set (c := concat (map version_entry_bytes es)).
  assert (E1 : rsp = ([0x10; 0x04; 0; 0; 0; N.of_nat (List.length es)]%N ++ c ++ r)) by (rewrite E; unfold version_body; rewrite <- !app_assoc; reflexivity).
  exists (fault_of ReqParseVersion (version_table (skipn 2 rsp))). split.
  - unfold hear_checks. cbn [app]. apply holds_here; [rewrite E1; simpl; lia|]. apply holds_here; [rewrite E1; reflexivity|]. apply holds_here; [rewrite E1; reflexivity|].
    unfold hear_version. apply fails_here. intros (es' & S). pose proof (list_count _ _ _ LV S). destruct S as (_ & _ & L3). lia.
  - exists (is TooManyVersionsReceived), TooManyVersionsReceived. split; [|split; reflexivity].
    rewrite E1. clear - L. unfold version_table, rsvd, has. cbn [seq flat_map app skipn].
    do 7 (apply holds_here; [first [reflexivity|simpl; lia]|]). apply fails_here.
    unfold byte_at. cbn [nth app]. lia.
Qed.

(** With room in the transcript: a list with a common version is taken exactly
    when it has at most two entries. *)
Theorem C89_accepted_iff_partial root R rsp es : req_setting -> req_reached root R -> bytes rsp -> req_state R = Some ReqVersion ->
  lists_versions rsp es ->
  (exists b R', requester_handle_msg R rsp = (Ok b, R')) <->
  List.length es <= 2 /\ (exists v, In v es /\ In v supported_versions) /\ List.length (t_get (req_transcript R)) + List.length rsp <= TRANSCRIPT_SIZE.
Proof.
  intros HS HR HB ST LV. split.
  - intros H. apply (C59_accepts_iff root R rsp ReqVersion HS HR HB ST) in H. unfold hear_checks in H. cbn [app] in H.
    do 3 (apply Forall_inv_tail in H). unfold hear_version in H.
    pose proof (Forall_inv (Forall_inv_tail H)) as (es' & v & S & HC). pose proof (Forall_inv (Forall_inv_tail (Forall_inv_tail H))) as LF.
    pose proof (list_count _ _ _ LV S) as EL. pose proof S as (_ & _ & L2). cbn [fst] in *.
    assert (S' : says_versions rsp es) by (destruct LV as (A & B & _); split; [exact A|split; [exact B|lia]]).
    rewrite (says_versions_one rsp es es' HB S' S). split; [lia|]. split; [|exact LF]. exists v. destruct HC as (A & B & _). auto.
  - intros (L2 & (v & I1 & I2) & LF). apply (C59_accepts_iff root R rsp ReqVersion HS HR HB ST).
    pose proof LV as ((r & E) & F & _).
    assert (S : says_versions rsp es) by (split; [exists r; exact E|split; [exact F|exact L2]]).
    assert (HC : exists w, highest_common es w) by (destruct (C34_one_case es) as [X|X]; [exact X|now destruct (X v I1)]).
    destruct HC as (w & HC). unfold hear_checks. cbn [app]. unfold hear_version.
    assert (E1 : exists rest, rsp = [0x10; 0x04; 0]%N ++ rest) by (rewrite E; unfold version_body; rewrite <- !app_assoc; eexists; reflexivity).
    destruct E1 as (rest & ->).
    apply Forall_cons; [cbn; lia|]. apply Forall_cons; [reflexivity|]. apply Forall_cons; [reflexivity|].
    apply Forall_cons; [exists es; exact S|]. apply Forall_cons; [exists es, w; auto|]. apply Forall_cons; [exact LF|constructor].
Qed.
End Versions.

Section Algorithms.
Context {cfg : Config} {cr : Crypto}.

(** The build is configured for the signature algorithm [c]. *)
Definition configured (c : N) : Prop := exists name, In name SIGNING_ALGOS /\ BaseAsymAlgo_from_str name = Some c.
(** The library computes the hash [h], and it fits the digest arrays. *)
Definition computed (h : N) : Prop := hash_usable h.
(** [c] is a single algorithm out of [offer]. *)
Definition offered (offer c : N) : Prop := exists i, N.testbit offer i = true /\ c = (2 ^ i)%N.

Lemma configured_p256 c : built -> configured c -> c = 0x10%N.
Proof.
  intros B (name & I & E). destruct (built_facts B) as (_ & _ & SA & _). rewrite (SA name I) in E. vm_compute in E. congruence.
Qed.
Lemma p256_configured : built -> SIGNING_ALGOS <> [] -> configured 0x10%N.
Proof.
  intros B NE. destruct (built_facts B) as (_ & _ & SA & _). destruct SIGNING_ALGOS as [|s l] eqn:E; [congruence|].
  exists s. rewrite E. split; [now left|]. rewrite (SA s) by (left; reflexivity). reflexivity.
Qed.

(** What NEGOTIATE_ALGORITHMS offers and what the answer to it selects. *)
Definition negotiated slots (R : Responder) (rnd : Rnd) (req rsp : list N) (na : NegotiateAlgorithms) (al : Algorithms) : Prop :=
  setting slots /\ reached slots R /\ bytes req /\ rnd_ok rnd /\ (exists s, rsp_state R = Some (RspAlgorithms s)) /\
  (exists body, starts_with ([0x11; 0xE3]%N ++ body) req /\ negotiate_fmt body na) /\
  exists out rsp' R' s', responder_handle_msg R rnd req rsp = (Replied out (Ok tt), rsp', R') /\
    rsp_state R' = Some (RspIdAuth s') /\ ri_algorithms s' = al.

Lemma negotiate_formed bs na : bytes bs -> negotiate_algorithms_parse_body bs = Ok na -> exists body r, bs = body ++ r /\ negotiate_fmt body na.
Proof. intros HB H. now apply C09_negotiate_parse in H. Qed.
Lemma negotiated_selected slots R rnd req rsp na al : negotiated slots R rnd req rsp na al ->
  SpecResponder.selected (na_base_hash_algo na) (al_base_hash al) /\ SpecResponder.selected (na_base_asym_algo na) (al_base_asym al).
Proof.
  intros (HS & HR & HB & RK & (s & ES) & (body & (r & E1) & NF) & out & rsp' & R' & s' & HH & ES' & EA).
  destruct (step_sound slots R rnd req rsp out rsp' R' HS HR HB RK HH) as (st & st' & log' & Z1 & Z2 & _ & SV & _).
  rewrite ES in Z1. injection Z1 as <-. rewrite ES' in Z2. injection Z2 as <-.
  remember (t_get (rsp_transcript R)) as log0 eqn:EL. clear EL.
  inversion SV as [st log NE SW | | s0 log body' na' al' es fs out0 (r' & E2) NF' AC EO | | |]; subst.
  assert (E3 : body ++ r = body' ++ r') by (rewrite <- !app_assoc in E2; now apply app_inv_head in E2).
  assert (HBr : bytes (body ++ r)) by (rewrite <- app_assoc in HB; now apply bytes_app in HB).
  assert (X : negotiate_algorithms_parse_body (body ++ r) = Ok na) by (apply C09_negotiate_parse; eauto).
  rewrite E3 in X, HBr. assert (Y : negotiate_algorithms_parse_body (body' ++ r') = Ok na') by (apply C09_negotiate_parse; eauto).
  rewrite X in Y. injection Y as <-. destruct AC as (_ & _ & _ & _ & _ & _ & A7 & _ & A9). auto.
Qed.

(** If a hash the library computes is offered, such a hash is selected. *)
Theorem C90_hash slots R rnd req rsp na al h : negotiated slots R rnd req rsp na al ->
  offered (na_base_hash_algo na) h -> computed h ->
  offered (na_base_hash_algo na) (al_base_hash al) /\ computed (al_base_hash al).
Proof.
  intros NG (j & TJ & EH) (P & S & L). destruct (negotiated_selected _ _ _ _ _ _ _ NG) as [[(i & TI & LO & EC)|(_ & Z & _)] _].
  2: { rewrite Z, N.bits_0 in TJ. discriminate. }
  split; [exists i; auto|]. assert (IJ : (i <= j)%N) by (destruct (N.le_gt_cases i j) as [|G]; [auto|rewrite (LO j G) in TJ; discriminate]).
  assert (J2 : (j <= 2)%N).
  { destruct (N.le_gt_cases j 2) as [|G]; [auto|]. assert (X : (2 ^ 3 <= h)%N) by (rewrite EH; apply N.pow_le_mono_r; lia).
    change (2 ^ 3)%N with 8%N in X. destruct S as [-> | [-> | ->]]; lia. }
  unfold computed, hash_usable. rewrite EC. split; [exact P|]. rewrite EH in L.
  assert (CI : (i = 0 \/ i = 1 \/ i = 2)%N) by lia. assert (CJ : (j = 0 \/ j = 1 \/ j = 2)%N) by lia.
  destruct CI as [-> | [-> | ->]], CJ as [-> | [-> | ->]]; try lia; vm_compute in L |- *; split; auto; lia.
Qed.

(** For signatures this fails as soon as a lower algorithm is offered too. *)
Theorem C90_signature_iff_partial slots R rnd req rsp na al : built -> negotiated slots R rnd req rsp na al ->
  configured (al_base_asym al) <->
  SIGNING_ALGOS <> [] /\ offered (na_base_asym_algo na) 0x10 /\ forall c, offered (na_base_asym_algo na) c -> (0x10 <= c)%N.
Proof.
  intros B NG. destruct (negotiated_selected _ _ _ _ _ _ _ NG) as [_ SE]. split.
  - intros CF. assert (NE : SIGNING_ALGOS <> []) by (destruct CF as (n & I & _); destruct SIGNING_ALGOS; [destruct I|discriminate]).
    apply (configured_p256 _ B) in CF. rewrite CF in SE. split; [exact NE|].
    destruct SE as [(i & TI & LO & EC)|(_ & _ & X)]; [|discriminate]. split; [exists i; auto|].
    intros c (j & TJ & ->). rewrite EC. apply N.pow_le_mono_r; [lia|]. destruct (N.le_gt_cases i j) as [|G]; [auto|]. rewrite (LO j G) in TJ. discriminate.
  - intros (NE & (j & TJ & EJ) & LB). destruct SE as [(i & TI & LO & EC)|(_ & Z & _)]; [|rewrite Z, N.bits_0 in TJ; discriminate].
    replace (al_base_asym al) with 0x10%N; [now apply p256_configured|].
    assert (X : (0x10 <= al_base_asym al)%N) by (apply LB; exists i; auto).
    assert (IJ : (i <= j)%N) by (destruct (N.le_gt_cases i j) as [|G]; [auto|rewrite (LO j G) in TJ; discriminate]).
    assert (Y : (al_base_asym al <= 0x10)%N) by (rewrite EC, EJ; apply N.pow_le_mono_r; lia). lia.
Qed.
End Algorithms.

(** A requester of this implementation, configured for signatures, offers
    nothing else: with it every responder configured for them agrees. *)
Theorem C90_same_implementation cq kq cr kr slots R rnd req rsp na al :
  @built cq kq -> @SIGNING_ALGOS cq <> [] -> @own_offer cq kq na ->
  @built cr kr -> @SIGNING_ALGOS cr <> [] -> @negotiated cr kr slots R rnd req rsp na al ->
  @configured cq (al_base_asym al) /\ @configured cr (al_base_asym al).
Proof.
  intros BQ NQ O BR NR NG. pose proof (@p256_offer cq kq na BQ NQ O) as E. destruct (@negotiated_selected cr kr _ _ _ _ _ _ _ NG) as [_ SE].
  assert (X : al_base_asym al = 0x10%N).
  { destruct SE as [L|(_ & Z & _)]; [|rewrite E in Z; discriminate]. rewrite E in L. exact (lowest_unique _ _ _ L lowest_asym). }
  rewrite X. split; [exact (@p256_configured cq kq BQ NQ)|exact (@p256_configured cr kr BR NR)].
Qed.

(** * Witnesses *)
#[local] Existing Instance sample_cfg.
#[local] Existing Instance sample_crypto.
Definition three_versions : list VersionEntry := [mkVE 1 0 0 0; mkVE 1 1 0 0; mkVE 1 2 0 0]%N.
(** A responder of today, listing 1.2 besides 1.0 and 1.1. *)
Theorem C89_third_version_refuted :
  req_reached [1; 2; 3]%N sample_q0 /\ req_state sample_q0 = Some ReqVersion /\
  lists_versions ([0x10; 0x04]%N ++ version_body three_versions) three_versions /\ bytes ([0x10; 0x04]%N ++ version_body three_versions) /\
  highest_common three_versions (mkVE 1 1 0 0) /\
  exists R', requester_handle_msg sample_q0 ([0x10; 0x04]%N ++ version_body three_versions) = (Err (ReqParseVersion TooManyVersionsReceived), R').
Proof.
  split; [exists []; split; [constructor|reflexivity]|]. split; [reflexivity|]. split.
  { split; [exists []; reflexivity|]. split; [|simpl; lia]. repeat constructor. }
  split; [apply bytes_check; vm_compute; reflexivity|]. split.
  { split; [simpl; auto|]. split; [simpl; auto|]. intros w _ [<-|[<-|[]]]; vm_compute; discriminate. }
  eexists. vm_compute. reflexivity.
Qed.
Example C89_example :
  lists_versions (sample_response 0) supported_versions /\
  exists R', requester_handle_msg sample_q0 (sample_response 0) = (Ok false, R').
Proof.
  split; [split; [exists []; reflexivity|split; [repeat constructor|simpl; lia]]|]. eexists. vm_compute. reflexivity.
Qed.

(** The sample responder, configured for P-256 and holding such keys: offered
    RSASSA_2048 and P-256 it selects RSASSA_2048 ... *)
Definition both_offered : list N := negotiate_with 8 0x11.
Definition before_offer : Responder := served_R (firstn 2 sample_requests).
Definition selects_of (R : Responder) (rnd : Rnd) (req buf : list N) : option Algorithms :=
  match responder_handle_msg R rnd req buf with
  | (Replied _ (Ok tt), _, R') => match rsp_state R' with Some (RspIdAuth s') => Some (ri_algorithms s') | _ => None end
  | _ => None
  end.
Lemma selects_of_run R rnd req buf al : selects_of R rnd req buf = Some al ->
  exists out rsp' R' s', responder_handle_msg R rnd req buf = (Replied out (Ok tt), rsp', R') /\ rsp_state R' = Some (RspIdAuth s') /\ ri_algorithms s' = al.
Proof.
  intros SE. unfold selects_of in SE. destruct (responder_handle_msg R rnd req buf) as [[[out [[]|e|p]|p] rsp'] R']; try discriminate.
  destruct (rsp_state R') as [[| | | |s'|]|] eqn:ES; try discriminate. injection SE as <-. exists out, rsp', R', s'. auto.
Qed.
Definition selects (req : list N) : option Algorithms := selects_of before_offer (sample_rnd 3) req big_buf.
Lemma offer_formed req na : bytes req -> firstn 2 req = [0x11; 0xE3]%N -> negotiate_algorithms_parse_body (skipn 2 req) = Ok na ->
  exists body, starts_with ([0x11; 0xE3]%N ++ body) req /\ negotiate_fmt body na.
Proof.
  intros HB H2 HP. assert (E : req = [0x11; 0xE3]%N ++ skipn 2 req) by (rewrite <- H2; symmetry; apply firstn_skipn).
  assert (HBs : bytes (skipn 2 req)) by (rewrite E in HB; apply bytes_app in HB; apply HB).
  destruct (negotiate_formed _ _ HBs HP) as (body & r & E1 & F). exists body. split; [|exact F]. exists r. rewrite E at 1. rewrite E1. apply app_assoc.
Qed.
Lemma before_offer_waits : exists s, rsp_state before_offer = Some (RspAlgorithms s).
Proof. eexists. vm_compute. reflexivity. Qed.
(** NEGOTIATE_ALGORITHMS [req] arrives at the sample responder; it offers [na]
    and [al] is selected. *)
Lemma sample_negotiated req na al : forallb (fun b => b <? 256)%N req = true -> firstn 2 req = [0x11; 0xE3]%N ->
  negotiate_algorithms_parse_body (skipn 2 req) = Ok na -> selects req = Some al ->
  negotiated sample_slots before_offer (sample_rnd 3) req big_buf na al.
Proof.
  intros HB H2 HP SE. apply bytes_check in HB.
  split; [exact sample_setting|]. split; [exact (PropResponder.session_reached _ _ _ (sample_session 2))|]. split; [exact HB|].
  split; [apply sample_rnd_ok; reflexivity|]. split; [exact before_offer_waits|]. split.
  - exact (offer_formed _ _ HB H2 HP).
  - exact (selects_of_run _ _ _ _ _ SE).
Qed.
Definition offered_both : NegotiateAlgorithms := mkNA 1 0x11 7 4 own_structs.
Definition offered_own : NegotiateAlgorithms := mkNA 1 0x10 7 4 own_structs.
Definition al_both : Algorithms := match selects both_offered with Some al => al | None => algorithms_default end.
Definition al_own : Algorithms := match selects (sample_request 2) with Some al => al | None => algorithms_default end.
Lemma both_negotiated : negotiated sample_slots before_offer (sample_rnd 3) both_offered big_buf offered_both al_both.
Proof. apply sample_negotiated; vm_compute; reflexivity. Qed.
Lemma own_negotiated : negotiated sample_slots before_offer (sample_rnd 3) (sample_request 2) big_buf offered_own al_own.
Proof. apply sample_negotiated; vm_compute; reflexivity. Qed.
Lemma both_rsa : al_base_asym al_both = 1%N. Proof. vm_compute. reflexivity. Qed.
Lemma sample_signs : @SIGNING_ALGOS sample_cfg <> []. Proof. discriminate. Qed.
Lemma own_offered : own_offer offered_own.
Proof.
  destruct (@offer_exists sample_cfg sample_crypto sample_built) as (na & O). pose proof (@p256_offer sample_cfg sample_crypto na sample_built sample_signs O) as E.
  destruct O as (O1 & O2 & O3 & O4 & O5 & O6). destruct na as [a1 a2 a3 a4 a5]. cbn in *. subst.
  repeat split; auto; cbn [na_base_asym_algo offered_own]; apply O3.
Qed.
Theorem C90_signature_refuted : exists al, negotiated sample_slots before_offer (sample_rnd 3) both_offered big_buf offered_both al /\
  offered (na_base_asym_algo offered_both) 0x10 /\ configured 0x10 /\ ~ configured (al_base_asym al).
Proof.
  exists al_both. split; [exact both_negotiated|]. split; [exists 4%N; split; reflexivity|].
  split; [exact (p256_configured sample_built sample_signs)|]. intros X. apply (configured_p256 _ sample_built) in X. rewrite both_rsa in X. discriminate.
Qed.
(** ... and then panics on CHALLENGE. *)
Theorem C90_then_panics_refuted : panics_after [sample_request 0; sample_request 1; both_offered; sample_request 4] (sample_request 5).
Proof. panic_witness. Qed.
(** The sample request is answered with P-256 and SHA-256, which the build has. *)
Example C90_example : exists na al, negotiated sample_slots before_offer (sample_rnd 3) (sample_request 2) big_buf na al /\ own_offer na /\
  offered (na_base_hash_algo na) 4 /\ computed 4.
Proof.
  exists offered_own, al_own. split; [exact own_negotiated|]. split; [exact own_offered|]. split; [exists 2%N; split; reflexivity|].
  vm_compute. split; [reflexivity|split; [auto|lia]].
Qed.
Print Assumptions C89_too_many_refused.
Print Assumptions C89_accepted_iff_partial.
Print Assumptions C90_hash.
Print Assumptions C90_signature_iff_partial.
Print Assumptions C90_same_implementation.
