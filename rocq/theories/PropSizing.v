(** C71: how large the caller's buffers must be.  Above a bound computed from
    the build configuration the size of the buffer is not observable: neither
    in the reply, nor in what the endpoint does next. *)
From Verif Require Import Base BaseLemmas Config Encoding MsgCommon MsgVersion MsgCapabilities MsgAlgorithms MsgDigest
     MsgCertificates MsgChallenge MsgError Transcript Crypto Responder Requester SpecWire SpecMsgs SpecResponder SpecRequester SpecVerdict
     FlagLemmas PropTools PropTranscript PropVersionCaps PropAlg PropCerts PropChal PropGeneric PropTables RspParts RspStep ReqStep
     PropResponder PropRspState PropRequester PropReqState PropReqVerdict PropCapDriven BufRoom Sample SampleRun SampleReq.
#[local] Opaque chain_bytes.

(** * What is claimed *)
(** Room for every message a responder of this configuration may write:
    VERSION, CAPABILITIES and ALGORITHMS need at most 52 bytes, DIGESTS one
    digest per slot, CERTIFICATE one chain, CHALLENGE_AUTH two digests and one
    signature. *)
Definition response_room {cfg : Config} : nat :=
  Nat.max (Nat.max 52 (4 + MAX_DIGEST_SIZE * NUM_SLOTS))
          (Nat.max (8 + MAX_CERT_CHAIN_SIZE) (42 + 2 * MAX_DIGEST_SIZE + MAX_SIGNATURE_SIZE)).
(** NEGOTIATE_ALGORITHMS, the longest request, has 48 bytes. *)
Definition request_room : nat := 48.
(** The same calls on buffers of possibly different sizes. *)
Definition roomy_call {cfg : Config} (c1 c2 : call) : Prop :=
  match c1, c2 with
  | CallHandle rnd1 req1 rsp1, CallHandle rnd2 req2 rsp2 =>
      rnd1 = rnd2 /\ req1 = req2 /\ response_room <= length rsp1 /\ response_room <= length rsp2
  | CallReset, CallReset => True
  | _, _ => False
  end.
Definition roomy_req_call (c1 c2 : req_call) : Prop :=
  match c1, c2 with
  | CallNext f1 b1, CallNext f2 b2 => f1 = f2 /\ request_room <= length b1 /\ request_room <= length b2
  | CallMsg r1, CallMsg r2 => r1 = r2
  | _, _ => False
  end.
(** What the calls of a requester return. *)
Inductive req_result := NextResult (r : res RequesterError (list N)) | MsgResult (r : res RequesterError bool).
Fixpoint req_results {cfg : Config} {cr : Crypto} (R : Requester) (calls : list req_call) : list req_result :=
  match calls with
  | [] => []
  | CallNext fresh buf :: r =>
      let '(res, _, R') := requester_next_request R fresh buf in NextResult res :: req_results R' r
  | CallMsg rsp :: r => let '(res, R') := requester_handle_msg R rsp in MsgResult res :: req_results R' r
  end.

Section Sizing.
Context {cfg : Config} {cr : Crypto}.

Lemma error_reply_short e : length (error_reply e) <= 8.
Proof. destruct e as [|x| | | | |x|x|x| |x|x]; cbn; try lia; destruct x; cbn; try lia;
  match goal with y : ReadError |- _ => destruct y; cbn; lia end. Qed.

Theorem C71_responder slots R rnd req rsp1 rsp2 reply1 reply2 out1 out2 R1 R2 :
  setting slots -> reached slots R -> bytes req -> rnd_ok rnd ->
  response_room <= length rsp1 -> response_room <= length rsp2 ->
  responder_handle_msg R rnd req rsp1 = (reply1, out1, R1) ->
  responder_handle_msg R rnd req rsp2 = (reply2, out2, R2) ->
  reply1 = reply2 /\ R1 = R2.
Proof.
  intros (HL & H8 & HC) HR HB RK L1 L2 E1 E2. destruct (reached_ok _ _ HR) as [HS _]. unfold response_room in *.
  pose proof (Nat.max_lub_l _ _ _ L1) as La. pose proof (Nat.max_lub_r _ _ _ L1) as Lb.
  pose proof (Nat.max_lub_l _ _ _ L2) as Lc. pose proof (Nat.max_lub_r _ _ _ L2) as Ld.
  unfold responder_handle_msg in E1, E2. destruct (rsp_state R) as [st|].
  2: { injection E1 as <- <- <-. injection E2 as <- <- <-. auto. }
  rewrite HS in E1, E2.
  set (room := Nat.max (Nat.max 52 (4 + MAX_DIGEST_SIZE * NUM_SLOTS)) (Nat.max (8 + MAX_CERT_CHAIN_SIZE) (42 + 2 * MAX_DIGEST_SIZE + MAX_SIGNATURE_SIZE))) in *.
  assert (B1 : 52 <= room) by (unfold room; lia). assert (B2 : 4 + MAX_DIGEST_SIZE * NUM_SLOTS <= room) by (unfold room; lia).
  assert (B3 : 8 + MAX_CERT_CHAIN_SIZE <= room) by (unfold room; lia). assert (B4 : 42 + 2 * MAX_DIGEST_SIZE + MAX_SIGNATURE_SIZE <= room) by (unfold room; lia).
  destruct (b_dispatch room slots rnd req HB RK HL H8 HC B1 B2 B3 B4 0 st (mkCtx rsp1 (rsp_transcript R)) (mkCtx rsp2 (rsp_transcript R))) as (F & C0 & CP).
  { repeat split; cbn [c_rsp c_tr]; auto; lia. }
  destruct (rsp_dispatch st slots rnd req (mkCtx rsp1 _)) as [r1 c1], (rsp_dispatch st slots rnd req (mkCtx rsp2 _)) as [r2 c2].
  cbn [fst snd] in *. subst r2. destruct C0 as (T & M1 & M2 & _).
  destruct r1 as [[size st']|e|p]; cbn [rsp_finish] in E1, E2.
  - destruct (CP _ eq_refl) as (_ & _ & _ & K1 & K2 & K3). cbn [fst] in *.
    destruct (Nat.leb_spec size (length (c_rsp c1))); [|lia]. destruct (Nat.leb_spec size (length (c_rsp c2))); [|lia].
    injection E1 as <- <- <-. injection E2 as <- <- <-. rewrite K3, T. auto.
  - pose proof (C26_error_encodes e) as W. pose proof (error_reply_short e) as S.
    change (write_msg Error_id (fun e => e) (error_write_body (responder_error_to_msg e)) (c_rsp c1)) with (write_error (responder_error_to_msg e) (c_rsp c1)) in E1.
    change (write_msg Error_id (fun e => e) (error_write_body (responder_error_to_msg e)) (c_rsp c2)) with (write_error (responder_error_to_msg e) (c_rsp c2)) in E2.
    destruct (W (c_rsp c1)) as [W1 _]. destruct (W (c_rsp c2)) as [W2 _]. rewrite W1 in E1 by lia. rewrite W2 in E2 by lia.
    destruct (Nat.leb_spec (length (error_reply e)) (length (error_reply e ++ skipn (length (error_reply e)) (c_rsp c1)))) as [|X]; [|rewrite app_length in X; lia].
    destruct (Nat.leb_spec (length (error_reply e)) (length (error_reply e ++ skipn (length (error_reply e)) (c_rsp c2)))) as [|X]; [|rewrite app_length in X; lia].
    rewrite firstn_app_exact in E1 by reflexivity. rewrite firstn_app_exact in E2 by reflexivity.
    injection E1 as <- <- <-. injection E2 as <- <- <-. rewrite T. auto.
  - injection E1 as <- <- <-. injection E2 as <- <- <-. rewrite T. auto.
Qed.
(** So whole histories agree, answer by answer. *)
Theorem C71_responder_history slots calls1 calls2 : setting slots ->
  Forall call_ok calls1 -> Forall2 roomy_call calls1 calls2 ->
  after (responder_new slots) calls1 = after (responder_new slots) calls2 /\
  map fst (observed (responder_new slots) calls1) = map fst (observed (responder_new slots) calls2).
Proof.
  intros HS. assert (HR : reached slots (responder_new slots)) by (exists []; split; [constructor|reflexivity]).
  revert HR. generalize (responder_new slots). intros R HR OK H. revert R HR OK. induction H as [|c1 c2 l1 l2 HC _ IH]; intros R HR OK; [auto|].
  inversion OK as [|? ? O1 O2]; subst. pose proof (reached_step slots R c1 HR O1) as HR'.
  destruct c1 as [rnd req rsp1|], c2 as [rnd2 req2 rsp2|]; simpl in HC; try contradiction.
  - destruct HC as (<- & <- & L1 & L2), O1 as [OB OR]. cbn [after fold_left after_call observed] in *.
    destruct (responder_handle_msg R rnd req rsp1) as [[reply1 x1] R1] eqn:E1. destruct (responder_handle_msg R rnd req rsp2) as [[reply2 x2] R2] eqn:E2.
    destruct (C71_responder slots _ _ _ _ _ _ _ _ _ _ _ HS HR OB OR L1 L2 E1 E2) as (-> & <-). destruct (IH R1 HR' O2) as [I1 I2].
    split; [exact I1|]. cbn [map fst]. now rewrite I2.
  - cbn [after fold_left after_call observed]. apply IH; auto.
Qed.
(** Below the bound too: an answer a buffer was large enough for does not
    change in a larger one. *)
Theorem C71_larger_buffer slots R rnd req rsp out rsp' R' big : setting slots -> reached slots R -> bytes req -> rnd_ok rnd ->
  responder_handle_msg R rnd req rsp = (Replied out (Ok tt), rsp', R') -> length out <= length big ->
  exists R'', responder_handle_msg R rnd req big = (Replied out (Ok tt), out ++ skipn (length out) big, R'') /\
    rsp_state R'' = rsp_state R' /\ t_get (rsp_transcript R'') = t_get (rsp_transcript R').
Proof.
  intros HS HR HB RK HH LB. destruct (step_sound slots R rnd req rsp out rsp' R' HS HR HB RK HH)
      as (st & st' & log' & E1 & E2 & E3 & SV & L & E4 & L2).
  destruct (step_complete slots R rnd req big st out st' log' HS HR HB RK E1 SV LB L2) as (R'' & X1 & X2 & X3).
  exists R''. split; [exact X1|]. split; congruence.
Qed.

(** * The requester *)
Definition qrel (k : nat) (c1 c2 : QCtx) : Prop :=
  q_tr c1 = q_tr c2 /\ q_state c1 = q_state c2 /\ request_room <= length (q_buf c1) /\ request_room <= length (q_buf c2) /\
  k <= length (q_buf c1) /\ k <= length (q_buf c2) /\ firstn k (q_buf c1) = firstn k (q_buf c2).
Definition qsim {A} (k : nat) (m : Q A) : Prop := forall c1 c2, qrel k c1 c2 ->
  fst (m c1) = fst (m c2) /\ qrel 0 (snd (m c1)) (snd (m c2)) /\
  forall a, fst (m c1) = Ok a -> qrel k (snd (m c1)) (snd (m c2)).
Lemma qrel_weaken k c1 c2 : qrel k c1 c2 -> qrel 0 c1 c2.
Proof. intros (A & B & C & D & _). repeat split; auto; lia. Qed.
Lemma qsim_bind {A B} k (m : Q A) (f : A -> Q B) : qsim k m -> (forall a, qsim k (f a)) -> qsim k (bind m f).
Proof.
  intros Hm Hf c1 c2 R. destruct (Hm _ _ R) as (E1 & R0 & R1). unfold bind. destruct (m c1) as [r1 d1], (m c2) as [r2 d2]. cbn [fst snd] in *. subst r2.
  destruct r1 as [a|e|p]; cbn [fst snd]; [exact (Hf a _ _ (R1 a eq_refl))| |]; (split; [reflexivity|]; split; [exact R0|discriminate]).
Qed.
Lemma qsim_pure {A} k (r : res RequesterError A) : qsim k (fun c => (r, c)).
Proof. intros c1 c2 R. split; [reflexivity|]. split; [now apply (qrel_weaken k)|]. auto. Qed.
Lemma qsim_ret {A} k (a : A) : qsim k (ret a).
Proof. exact (qsim_pure k (Ok a)). Qed.
Lemma qsim_lift {A} k (r : res RequesterError A) : qsim k (lift r).
Proof. exact (qsim_pure k r). Qed.
Lemma qsim_pnc {A} k p : qsim (A := A) k (pnc p).
Proof. exact (qsim_pure k (Panic p)). Qed.
Lemma qsim_set k s : qsim k (q_set s).
Proof.
  intros c1 c2 (A & B & C). unfold q_set. cbn [fst snd]. assert (X : qrel k (mkQCtx (q_buf c1) (q_tr c1) s) (mkQCtx (q_buf c2) (q_tr c2) s)) by (split; [exact A|]; split; [reflexivity|exact C]).
  split; [reflexivity|]. split; [now apply (qrel_weaken k)|]. auto.
Qed.
Lemma qsim_clear k : qsim k q_clear.
Proof.
  intros c1 c2 (A & B & C). unfold q_clear. cbn [fst snd]. rewrite A. assert (X : qrel k (mkQCtx (q_buf c1) (t_clear (q_tr c2)) (q_state c1)) (mkQCtx (q_buf c2) (t_clear (q_tr c2)) (q_state c2))) by (split; [reflexivity|]; split; [exact B|exact C]).
  split; [reflexivity|]. split; [now apply (qrel_weaken k)|]. auto.
Qed.
Lemma qsim_extend k bs : qsim k (q_extend bs).
Proof.
  intros c1 c2 (A & B & C). unfold q_extend. rewrite A. destruct (map_err req_of_full (t_extend bs) (q_tr c2)) as [r t]. cbn [fst snd].
  assert (X : qrel k (mkQCtx (q_buf c1) t (q_state c1)) (mkQCtx (q_buf c2) t (q_state c2))) by (split; [reflexivity|]; split; [exact B|exact C]).
  split; [reflexivity|]. split; [now apply (qrel_weaken k)|]. auto.
Qed.
Lemma qsim_prefix k : qsim k (q_prefix k).
Proof.
  intros c1 c2 R. pose proof R as (_ & _ & _ & _ & D & E & F). unfold q_prefix.
  destruct (Nat.leb_spec k (length (q_buf c1))); [|lia]. destruct (Nat.leb_spec k (length (q_buf c2))); [|lia]. cbn [fst snd]. rewrite F.
  split; [reflexivity|]. split; [now apply (qrel_weaken k)|]. auto.
Qed.
Lemma qsim_write {B} wr F enc (f : nat -> Q B) : writes_exactly wr F enc -> length enc <= request_room ->
  qsim (length enc) (f (length enc)) -> forall c1 c2, qrel 0 c1 c2 ->
  fst (bind (q_write req_of_full wr) f c1) = fst (bind (q_write req_of_full wr) f c2) /\
  qrel 0 (snd (bind (q_write req_of_full wr) f c1)) (snd (bind (q_write req_of_full wr) f c2)).
Proof.
  intros W L Hf c1 c2 (E1 & E2 & R1 & R2 & _).
  destruct (q_write_spec wr F enc c1 W) as [A1 _]. destruct (q_write_spec wr F enc c2 W) as [A2 _].
  rewrite (bind_run _ _ _ _ _ (A1 (Nat.le_trans _ _ _ L R1))), (bind_run _ _ _ _ _ (A2 (Nat.le_trans _ _ _ L R2))).
  destruct (Hf (mkQCtx (enc ++ skipn (length enc) (q_buf c1)) (q_tr c1) (q_state c1)) (mkQCtx (enc ++ skipn (length enc) (q_buf c2)) (q_tr c2) (q_state c2))) as (X & Y & _).
  { repeat split; cbn [q_buf q_tr q_state]; auto; rewrite ?app_length, ?skipn_length; try lia. now rewrite !firstn_app_exact by reflexivity. }
  auto.
Qed.
Ltac qs := repeat first [ apply qsim_ret | apply qsim_bind; [first [apply qsim_set | apply qsim_clear | apply qsim_extend | apply qsim_prefix | apply qsim_lift]|intros] ].
Lemma q_write_req st fresh c1 c2 : length fresh = 32 -> qrel 0 c1 c2 ->
  fst (write_req st fresh c1) = fst (write_req st fresh c2) /\ qrel 0 (snd (write_req st fresh c1)) (snd (write_req st fresh c2)).
Proof.
  intros LF R. assert (NO : forall p, fst (pnc (E := RequesterError) (A := list N) p c1) = fst (pnc (E := RequesterError) (A := list N) p c2) /\ qrel 0 (snd (pnc (E := RequesterError) (A := list N) p c1)) (snd (pnc (E := RequesterError) (A := list N) p c2))).
  { intros p. exact (conj eq_refl R). }
  destruct st as [| |s|s|s|s|]; cbn [write_req]; try apply NO.
  - eapply qsim_write; [exact C07_get_version_write|unfold request_room; cbn; lia| |exact R]. qs.
  - unfold cap_write_msg. destruct config_to_get_capabilities_msg as [m|e|p]; [|exact (conj eq_refl R)..].
    change (bind (lift (Ok m)) ?f) with (f m). cbv beta.
    eapply qsim_write; [exact (C08_get_capabilities_write m)| | |exact R].
    + apply Nat.leb_le. reflexivity.
    + qs.
  - unfold alg_write_msg. destruct config_to_negotiate_algorithms_msg as [m|e|p] eqn:EC; [|exact (conj eq_refl R)..].
    change (bind (lift (Ok m)) ?f) with (f m). cbv beta.
    eapply qsim_write; [exact (offer_writes m (offer_named m EC))| | |exact R].
    + apply Nat.leb_le. reflexivity.
    + qs.
  - destruct (qi_digests s).
    + unfold write_get_certificate_msg. destruct (negb _); [apply NO|].
      eapply qsim_write; [exact (C12_get_certificate_write (mkGetCertificate 0 0 (N.of_nat MAX_CERT_CHAIN_SIZE mod 65536)))|apply Nat.leb_le; reflexivity| |exact R]. qs.
    + eapply qsim_write; [exact C11_get_digests_write|unfold request_room; cbn; lia| |exact R]. qs.
  - unfold chal_write_msg. cbv zeta. set (st' := ReqChallenge _).
    rewrite (bind_run _ _ c1 tt (mkQCtx (q_buf c1) (q_tr c1) st')) by reflexivity.
    rewrite (bind_run _ _ c2 tt (mkQCtx (q_buf c2) (q_tr c2) st')) by reflexivity.
    eapply qsim_write; [exact (C14_challenge_write (mkChallenge (qh_cert_slot s) MHNone (nonce_new fresh)))| | |].
    + unfold challenge_layout. rewrite !app_length. unfold request_room. cbn [length ch_nonce]. unfold nonce_new. destruct feature_rand; rewrite ?repeat_length; cbn; lia.
    + qs.
    + destruct R as (A & B & C). split; [exact A|]. split; [reflexivity|exact C].
Qed.
Theorem C71_requester R fresh buf1 buf2 r1 r2 out1 out2 R1 R2 : length fresh = 32 ->
  request_room <= length buf1 -> request_room <= length buf2 ->
  requester_next_request R fresh buf1 = (r1, out1, R1) -> requester_next_request R fresh buf2 = (r2, out2, R2) ->
  r1 = r2 /\ R1 = R2.
Proof.
  intros LF L1 L2 E1 E2. unfold requester_next_request in E1, E2. destruct (req_state R) as [st|].
  2: { injection E1 as <- <- <-. injection E2 as <- <- <-. auto. }
  assert (X : st = ReqNewSession \/ st <> ReqNewSession) by (destruct st; auto; right; discriminate). destruct X as [->|N1].
  { injection E1 as <- <- <-. injection E2 as <- <- <-. auto. }
  destruct (q_write_req st fresh (mkQCtx buf1 (req_transcript R) st) (mkQCtx buf2 (req_transcript R) st) LF) as (F & (T & S & _)).
  { repeat split; cbn [q_buf]; auto; lia. }
  assert (E1' : (let '(r, c0) := write_req st fresh (mkQCtx buf1 (req_transcript R) st) in (r, q_buf c0, mkRequester (req_root R) (q_tr c0) (Some (q_state c0)))) = (r1, out1, R1)).
  { destruct st; try congruence; exact E1. }
  assert (E2' : (let '(r, c0) := write_req st fresh (mkQCtx buf2 (req_transcript R) st) in (r, q_buf c0, mkRequester (req_root R) (q_tr c0) (Some (q_state c0)))) = (r2, out2, R2)).
  { destruct st; try congruence; exact E2. }
  destruct (write_req st fresh (mkQCtx buf1 _ st)) as [a1 c1], (write_req st fresh (mkQCtx buf2 _ st)) as [a2 c2]. cbn [fst snd] in *.
  injection E1' as <- <- <-. injection E2' as <- <- <-. rewrite F, T, S. auto.
Qed.
Theorem C71_requester_history calls1 calls2 : Forall req_call_ok calls1 -> Forall2 roomy_req_call calls1 calls2 -> forall R,
  req_after R calls1 = req_after R calls2 /\ req_results R calls1 = req_results R calls2.
Proof.
  intros OK H. induction H as [|c1 c2 l1 l2 HC _ IH]; intros R; [auto|]. inversion OK as [|? ? O1 O2]; subst. specialize (IH O2).
  destruct c1 as [f buf1|r], c2 as [f2 buf2|r2]; simpl in HC; try contradiction.
  - destruct HC as (<- & L1 & L2). destruct O1 as [LF _]. cbn [req_after fold_left req_after_call req_results].
    destruct (requester_next_request R f buf1) as [[a1 x1] R1] eqn:E1. destruct (requester_next_request R f buf2) as [[a2 x2] R2] eqn:E2.
    destruct (C71_requester _ _ _ _ _ _ _ _ _ _ LF L1 L2 E1 E2) as (-> & <-). destruct (IH R1) as [I1 I2]. split; [exact I1|]. now rewrite I2.
  - subst r2. cbn [req_after fold_left req_after_call req_results]. destruct (requester_handle_msg R r) as [a R1]. destruct (IH R1) as [I1 I2]. split; [exact I1|]. now rewrite I2.
Qed.
End Sizing.

(** * The bounds are met and cannot be lowered *)
(** For the requester in every configuration: a NEGOTIATE_ALGORITHMS request is
    never written into fewer bytes. *)
Theorem C71_request_room_needed {cfg : Config} {cr : Crypto} root R s fresh buf out buf' R' : req_setting -> req_reached root R ->
  req_state R = Some (ReqAlgorithms s) -> requester_next_request R fresh buf = (Ok out, buf', R') ->
  length out = request_room /\ request_room <= length buf.
Proof.
  intros HS HR ES H. destruct (reached_inv root R _ HS HR ES ltac:(discriminate)) as (_ & W & _).
  destruct (next_sound R fresh buf out buf' R' W H) as (st & st' & log' & E1 & RQ & L & _).
  rewrite ES in E1. injection E1 as <-. inversion RQ; subst.
  match goal with |- context[offer_msg ?na] => assert (X : length (offer_msg na) = 48) by reflexivity end. unfold request_room. split; [exact X|]. rewrite <- X. exact L.
Qed.
(** And for the responder: with a chain of the configured maximal size in a
    slot, a GET_CERTIFICATE is never answered in fewer than [8 +
    MAX_CERT_CHAIN_SIZE] bytes, which is [response_room] unless the digests or
    the signatures are larger than that. *)
Theorem C71_response_room_needed {cfg : Config} {cr : Crypto} slots R rnd slot req rsp out rsp' R' ch :
  setting slots -> reached slots R -> rnd_ok rnd -> bytes req -> starts_with [0x11; 0x82; slot]%N req ->
  slot_chain slots (N.to_nat slot) = Some ch -> length (chain_bytes ch) = MAX_CERT_CHAIN_SIZE ->
  responder_handle_msg R rnd req rsp = (Replied out (Ok tt), rsp', R') ->
  length out = 8 + MAX_CERT_CHAIN_SIZE /\ 8 + MAX_CERT_CHAIN_SIZE <= length rsp.
Proof.
  intros HS HR RK HB (rest & ->) SC LC HH.
  destruct (step_sound slots R rnd _ rsp out rsp' R' HS HR HB RK HH) as (st & st' & log' & _ & _ & _ & SV & L & _).
  assert (X : length out = 8 + MAX_CERT_CHAIN_SIZE); [|split; [exact X|rewrite <- X; exact L]].
  destruct SV as [st log NE (r & E) | s log ct flags own out (r & E) OB NM FN ->
    | s log body na al es fs out (r & E) NF AC -> | s log mask out (r & E) L0 MS CF ->
    | s log slot0 off len out (r & E) L1 L2 L3 CF -> | s log slot0 t nonce mask filled ss sg out (r & E) NO NTH CF HU SL LE MS -> SG LS];
    try discriminate E.
  injection E as E0 _. subst slot0. unfold slot_chain_bytes. rewrite SC, app_length. unfold certificate_layout. rewrite !app_length, LC.
  change (length (zeros 1)) with 1. unfold u16le. cbn [length]. lia.
Qed.

#[local] Existing Instance sample_cfg.
#[local] Existing Instance sample_crypto.
(** A chain of exactly MAX_CERT_CHAIN_SIZE bytes. *)
Definition full_slots : list (option FilledSlot) :=
  [Some (mkSlot 0x10 1 (mkChain (repeat 7%N 32) ([0x30; 0x82; 3; 0xD8]%N ++ repeat 9%N 984) []) toy_signer); None; None; None; None].
Definition full_R : Responder := match serve 1 (firstn 4 sample_requests) (responder_new full_slots) with Some (_, R) => R | None => responder_new full_slots end.
Definition full_ex : list (list N * list N) := Eval vm_compute in
  match serve 1 (firstn 4 sample_requests) (responder_new full_slots) with Some (l, _) => l | None => [] end.
Lemma full_served : serve 1 (firstn 4 sample_requests) (responder_new full_slots) = Some (full_ex, full_R).
Proof. vm_compute. reflexivity. Qed.
Lemma full_reached : reached full_slots full_R.
Proof.
  apply (PropResponder.session_reached full_slots full_ex). 
  exact (serve_session_any (firstn 4 sample_requests) 1 [] _ _ _ eq_refl (bytes_all (firstn 4 sample_requests) eq_refl) (session_new full_slots) full_served).
Qed.
Definition is_ok (reply : Reply) : bool := match reply with Replied _ (Ok tt) => true | _ => false end.
Definition reply_size (reply : Reply) : nat := match reply with Replied out _ => length out | _ => 0 end.
Definition ask_certificate (room : nat) : Reply :=
  fst (fst (responder_handle_msg full_R (sample_rnd 9) (sample_request 4) (repeat 0xAA%N room))).
Example C71_responder_example :
  setting full_slots /\ reached full_slots full_R /\ bytes (sample_request 4) /\ rnd_ok (sample_rnd 9) /\
  response_room = 8 + MAX_CERT_CHAIN_SIZE /\ starts_with [0x11; 0x82; 0]%N (sample_request 4) /\
  is_ok (ask_certificate response_room) = true /\ reply_size (ask_certificate response_room) = response_room /\
  is_ok (ask_certificate (response_room - 1)) = false.
Proof.
  split; [exact (conj eq_refl (proj2 sample_setting))|]. split; [exact full_reached|]. split; [apply bytes_check; vm_compute; reflexivity|].
  split; [apply sample_rnd_ok; reflexivity|]. split; [vm_compute; reflexivity|]. split; [eexists; vm_compute; reflexivity|].
  repeat split; vm_compute; reflexivity.
Qed.
Example C71_history_example :
  Forall2 roomy_call [CallHandle (sample_rnd 1) (sample_request 0) (repeat 0%N response_room); CallReset]
                     [CallHandle (sample_rnd 1) (sample_request 0) (repeat 1%N (7 + response_room)); CallReset].
Proof. repeat constructor; cbn [roomy_call]; rewrite repeat_length; lia. Qed.
(** The requester after two exchanges asks with NEGOTIATE_ALGORITHMS. *)
Example C71_requester_example :
  req_setting /\ req_reached [1; 2; 3]%N (driven_R 2) /\ (exists s, req_state (driven_R 2) = Some (ReqAlgorithms s)) /\
  (exists out, fst (fst (requester_next_request (driven_R 2) (repeat 7%N 32) (repeat 0%N request_room))) = Ok out) /\
  fst (fst (requester_next_request (driven_R 2) (repeat 7%N 32) (repeat 0%N (request_room - 1)))) = Err ReqBufferFull /\
  Forall2 roomy_req_call [CallNext (repeat 7%N 32) (repeat 0%N request_room); CallMsg [1%N]]
                         [CallNext (repeat 7%N 32) (repeat 0%N 100); CallMsg [1%N]].
Proof.
  split; [exact sample_req_setting|]. split; [apply sample_reached; lia|]. split; [eexists; vm_compute; reflexivity|].
  split; [eexists; vm_compute; reflexivity|]. split; [vm_compute; reflexivity|]. repeat constructor; vm_compute; lia.
Qed.
