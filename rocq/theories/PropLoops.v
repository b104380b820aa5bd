(** C86: the documented loops end, in the ways documented, whatever the peer does. *)
From Verif Require Import Base BaseLemmas Config Encoding MsgCommon MsgVersion MsgCapabilities MsgAlgorithms MsgDigest
     MsgCertificates MsgChallenge MsgError Transcript Crypto Responder Requester Loops SpecWire SpecMsgs SpecResponder SpecRequester SpecAgree SpecVerdict SpecReqVerdict
     PropTools RspStep PropResponder ReqStep ReqMsg PropRequester PropReqState PropReqPanic PropReqVerdict PropTables PropMitm PropAgree Sample SampleRun SampleReq.

Notation exchange := (list N * list N)%type.

(** What the environment provides: any bytes as responses, 32 random bytes. *)
Definition peer_ok (peer : list exchange -> list N -> option (list N)) : Prop := forall ex req rsp, peer ex req = Some rsp -> bytes rsp.
Definition supply_ok (supply : nat -> list N * list N) : Prop := forall k, fresh_ok (fst (supply k)).
(** The codes of the protocol's requests and responses, in order. *)
Definition request_codes : list N := [0x84; 0xE1; 0xE3; 0x81; 0x82; 0x83]%N.
Definition response_codes : list N := [0x04; 0x61; 0x63; 0x01; 0x02; 0x03]%N.

Section Loop.
Context {cfg : Config} {cr : Crypto}.

(** Which exchange a state is about to do. *)
Definition stage (st : ReqStates) : nat :=
  match st with
  | ReqVersion => 0 | ReqCapabilities _ => 1 | ReqAlgorithms _ => 2
  | ReqIdAuth s => match qi_digests s with None => 3 | Some _ => 4 end
  | ReqChallenge _ => 5 | ReqNewSession | ReqError => 6
  end.
Lemma heard_stage root ev st : req_now root ev st -> st <> ReqNewSession -> stage st <= 5 /\ heard (stage st) ev.
Proof.
  destruct st as [| |s|s|s|s|]; cbn [req_now stage].
  - tauto.
  - intros (n & ->) _. split; [lia|]. unfold heard. now rewrite received_asks.
  - intros (ev0 & n & own & T & -> & _) _. split; [lia|]. apply heard_asks. eapply heard_version; eauto.
  - intros (ev0 & n & own & T & -> & _) _. split; [lia|]. apply heard_asks. eapply heard_capabilities; eauto.
  - intros [H _] _. destruct (qi_digests s).
    + destruct H as (ev0 & n & T & ->). split; [lia|]. apply heard_asks. eapply heard_digests; eauto.
    + destruct H as (ev0 & n & T & ->). split; [lia|]. apply heard_asks. eapply heard_algorithms; eauto.
  - intros (ev0 & nonces & d & T & -> & _) _. split; [lia|]. unfold heard. rewrite received_app, received_challenges, app_nil_r.
    eapply heard_certificate; eauto.
  - congruence.
Qed.
Lemma received_as_events ex : received (as_events ex) = map snd ex.
Proof. induction ex as [|x ex IH]; [reflexivity|]. cbn. f_equal. exact IH. Qed.
Lemma requested_code fresh st log out st' log' : requested fresh st log out st' log' ->
  nth_error request_codes (stage st) = Some (code out) /\ st <> ReqNewSession /\ st <> ReqError.
Proof.
  intros H. destruct H as [log|s log own out _ _ ->|s log na out _ ->|s log out E ->|s log out E _ ->|s log out ->]; cbn [stage];
    try rewrite E; try (split; [reflexivity|split; discriminate]).
  destruct (qi_digests s); [|congruence]. split; [reflexivity|split; discriminate].
Qed.

(** The loop between two rounds. *)
Definition between (root : list N) (ex : list exchange) (Q : Requester) : Prop :=
  req_session root (as_events ex) Q /\ req_state Q <> Some ReqNewSession /\
  map code (map fst ex) = firstn (length ex) request_codes.
Lemma between_stage root ex Q : req_setting -> between root ex Q ->
  exists st, req_state Q = Some st /\ stage st = length ex /\ length ex <= 5 /\ map code (map snd ex) = firstn (length ex) response_codes.
Proof.
  intros HS (H & NS & _). destruct (session_now _ _ _ HS H) as (st & _ & ES & _ & _ & N & _). exists st. split; [auto|].
  destruct (heard_stage _ _ _ N ltac:(congruence)) as [L HD]. unfold heard in HD. rewrite received_as_events in HD.
  assert (E : length ex = stage st).
  { rewrite <- (map_length snd), <- (map_length code), HD, firstn_length. cbn [length steps]. unfold steps. cbn [length]. lia. }
  split; [auto|]. split; [lia|]. now rewrite E.
Qed.
Lemma between_start root : between root [] (requester_new root).
Proof. split; [constructor|]. split; [discriminate|reflexivity]. Qed.
Lemma firstn_next {A} (l : list A) k x : nth_error l k = Some x -> firstn (S k) l = firstn k l ++ [x].
Proof. apply firstn_S_nth. Qed.

(** One round that goes well. *)
Lemma round root ex Q fresh buf req buf' Q1 rsp b Q2 : req_setting -> between root ex Q -> fresh_ok fresh ->
  requester_next_request Q fresh buf = (Ok req, buf', Q1) -> bytes rsp -> requester_handle_msg Q1 rsp = (Ok b, Q2) ->
  req_session root (as_events (ex ++ [(req, rsp)])) Q2 /\
  map code (map fst (ex ++ [(req, rsp)])) = firstn (length (ex ++ [(req, rsp)])) request_codes /\
  map code (map snd (ex ++ [(req, rsp)])) = firstn (length (ex ++ [(req, rsp)])) response_codes /\
  (b = false -> between root (ex ++ [(req, rsp)]) Q2).
Proof.
  intros HS HB FO E1 BR E2. destruct (between_stage _ _ _ HS HB) as (st & ES & ST & LE & RC). destruct HB as (H & NS & QC).
  destruct (session_now _ _ _ HS H) as (st0 & _ & ES0 & W & _). rewrite ES in ES0. injection ES0 as <-.
  destruct (next_sound Q fresh buf req buf' Q1 W E1) as (st0 & st' & log' & ES0 & RQ & _). rewrite ES in ES0. injection ES0 as <-.
  destruct (requested_code _ _ _ _ _ _ RQ) as (EC & _). rewrite ST in EC.
  pose proof (req_session_sent root _ Q fresh buf req buf' Q1 H FO E1) as H1.
  pose proof (req_session_got root _ Q1 rsp b Q2 H1 BR E2) as H2. rewrite <- app_assoc in H2.
  assert (HE : req_session root (as_events (ex ++ [(req, rsp)])) Q2) by (rewrite as_events_app; exact H2).
  assert (QC' : map code (map fst (ex ++ [(req, rsp)])) = firstn (length (ex ++ [(req, rsp)])) request_codes).
  { rewrite !map_app, QC, app_length. cbn [map fst length]. rewrite Nat.add_1_r. symmetry. now apply firstn_next. }
  split; [exact HE|]. split; [exact QC'|]. split.
  - destruct (C36_protocol_order root _ Q2 HS HE) as (k & K). rewrite received_as_events in K.
    assert (EL : length (ex ++ [(req, rsp)]) = Nat.min k 6) by (rewrite <- (map_length snd), <- (map_length code), K, firstn_length; reflexivity).
    rewrite K, EL. destruct (Nat.min_dec k 6) as [-> | E]; [reflexivity|]. rewrite E. assert (K6 : 6 <= k) by lia. rewrite firstn_all2 by (cbn; exact K6). reflexivity.
  - intros ->. split; [exact HE|]. split; [|exact QC'].
    destruct (C36_completion root _ Q1 rsp false Q2 HS H1 BR E2) as [_ X]. destruct (X eq_refl) as (s & -> & N1 & _). congruence.
Qed.
End Loop.

Section Props.
Context {cfg : Config} {cr : Crypto}.
Variables (peer : list exchange -> list N -> option (list N)) (supply : nat -> list N * list N).
Notation loop := (init_loop peer supply).
Notation ask k Q := (requester_next_request Q (fst (supply k)) (snd (supply k))).

(** What was the last thing to happen. *)
Definition ended_as (root : list N) (ex : list exchange) (e : loop_end) : Prop :=
  match e with
  | LRunning Q => between root ex Q
  | LComplete Q => exists ex0 req rsp Q0 buf Q1, ex = ex0 ++ [(req, rsp)] /\ between root ex0 Q0 /\
      ask (length ex0) Q0 = (Ok req, buf, Q1) /\ peer ex0 req = Some rsp /\ requester_handle_msg Q1 rsp = (Ok true, Q)
  | LNoRequest err => exists Q0 buf Q1, between root ex Q0 /\ ask (length ex) Q0 = (Err err, buf, Q1)
  | LAskPanicked p => exists Q0 buf Q1, between root ex Q0 /\ ask (length ex) Q0 = (Panic p, buf, Q1)
  | LNoResponse req => exists Q0 buf Q1, between root ex Q0 /\ ask (length ex) Q0 = (Ok req, buf, Q1) /\ peer ex req = None
  | LRefused req rsp err => exists Q0 buf Q1 Q2, between root ex Q0 /\
      ask (length ex) Q0 = (Ok req, buf, Q1) /\ peer ex req = Some rsp /\ requester_handle_msg Q1 rsp = (Err err, Q2)
  | LHearPanicked req rsp p => exists Q0 buf Q1 Q2, between root ex Q0 /\
      ask (length ex) Q0 = (Ok req, buf, Q1) /\ peer ex req = Some rsp /\ requester_handle_msg Q1 rsp = (Panic p, Q2)
  end.
Lemma loop_ended root : req_setting -> supply_ok supply -> peer_ok peer ->
  forall n ex Q, between root ex Q -> ended_as root (fst (loop n ex Q)) (snd (loop n ex Q)) /\
    (forall Q', snd (loop n ex Q) = LRunning Q' -> length (fst (loop n ex Q)) = n + length ex).
Proof.
  intros HS SO PO. induction n as [|n IH]; intros ex Q HB; cbn [init_loop].
  { cbn [fst snd ended_as]. split; [exact HB|reflexivity]. }
  specialize (SO (length ex)). destruct (supply (length ex)) as [fresh buf] eqn:ESU. cbn [fst] in SO.
  destruct (requester_next_request Q fresh buf) as [[[req|e|p] buf'] Q1] eqn:E1; cbn [fst snd].
  2,3: split; [|discriminate]; cbn [ended_as]; rewrite ESU; exists Q, buf', Q1; auto.
  destruct (peer ex req) as [rsp|] eqn:EP; cbn [fst snd].
  2: split; [|discriminate]; cbn [ended_as]; rewrite ESU; exists Q, buf', Q1; auto.
  destruct (requester_handle_msg Q1 rsp) as [[[|]|e|p] Q2] eqn:E2; cbn [fst snd].
  - split; [|discriminate]. cbn [ended_as]. exists ex, req, rsp, Q, buf', Q1. rewrite ESU. auto.
  - destruct (round _ _ _ _ _ _ _ _ _ _ _ HS HB SO E1 (PO _ _ _ EP) E2) as (_ & _ & _ & B).
    destruct (IH _ Q2 (B eq_refl)) as [X Y]. split; [exact X|]. intros Q' E. rewrite (Y Q' E), app_length. cbn [length]. lia.
  - split; [|discriminate]. cbn [ended_as]. rewrite ESU. exists Q, buf', Q1, Q2. auto.
  - split; [|discriminate]. cbn [ended_as]. rewrite ESU. exists Q, buf', Q1, Q2. auto.
Qed.
Lemma loop_stable : forall n m ex Q, n <= m -> (forall Q', snd (loop n ex Q) <> LRunning Q') -> loop m ex Q = loop n ex Q.
Proof.
  induction n as [|n IH]; intros m ex Q L NR. { exfalso. now apply (NR Q). }
  destruct m as [|m]; [lia|]. cbn [init_loop] in *. destruct (supply (length ex)) as [fresh buf].
  destruct (requester_next_request Q fresh buf) as [[[req|e|p] buf'] Q1]; try reflexivity.
  destruct (peer ex req) as [rsp|]; try reflexivity.
  destruct (requester_handle_msg Q1 rsp) as [[[|]|e|p] Q2]; try reflexivity. apply IH; [lia|exact NR].
Qed.

(** Against any peer whatsoever the loop ends, within six rounds. *)
Theorem C86_loop_ends root : req_setting -> supply_ok supply -> peer_ok peer ->
  (forall Q, snd (loop 6 [] (requester_new root)) <> LRunning Q) /\
  forall n, 6 <= n -> loop n [] (requester_new root) = loop 6 [] (requester_new root).
Proof.
  intros HS SO PO. assert (X : forall Q, snd (loop 6 [] (requester_new root)) <> LRunning Q).
  { intros Q E. destruct (loop_ended root HS SO PO 6 [] _ (between_start root)) as [A B]. specialize (B Q E). rewrite E in A.
    destruct (between_stage _ _ _ HS A) as (_ & _ & _ & LE & _). cbn [length] in B. lia. }
  split; [exact X|]. intros n L. apply loop_stable; auto.
Qed.

(** The exchanges are the protocol's, in order. *)
Theorem C86_exchanges root n ex e : req_setting -> supply_ok supply -> peer_ok peer ->
  loop n [] (requester_new root) = (ex, e) ->
  length ex <= 6 /\ map code (map fst ex) = firstn (length ex) request_codes /\ map code (map snd ex) = firstn (length ex) response_codes.
Proof.
  intros HS SO PO E. destruct (loop_ended root HS SO PO n [] _ (between_start root)) as [A _]. rewrite E in A. cbn [fst snd] in A.
  assert (BE : forall Q, between root ex Q ->
     length ex <= 6 /\ map code (map fst ex) = firstn (length ex) request_codes /\ map code (map snd ex) = firstn (length ex) response_codes).
  { intros Q B. destruct (between_stage _ _ _ HS B) as (_ & _ & _ & LE & C). split; [lia|]. split; [apply B|exact C]. }
  destruct e; cbn [ended_as] in A.
  2-7: repeat match goal with H : exists _, _ |- _ => destruct H end; repeat match goal with H : _ /\ _ |- _ => destruct H end; eauto.
  destruct A as (ex0 & req & rsp & Q0 & buf & Q1 & -> & B & E1 & EP & E2).
  destruct (round _ _ _ _ _ _ _ _ _ _ _ HS B (SO _) E1 (PO _ _ _ EP) E2) as (_ & C1 & C2 & _).
  split; [|auto]. destruct (between_stage _ _ _ HS B) as (_ & _ & _ & LE & _). rewrite app_length. cbn. lia.
Qed.

(** * Completion *)
(** The certificate exchange is the fifth, the algorithms were the third. *)
Lemma told_first3 v own ct fl al d slot portion ex : told_certificate v own ct fl al d slot portion (as_events ex) ->
  both cert_bit own fl = true /\ length ex = 5 /\ told_algorithms v own ct fl al (as_events (firstn 3 ex)).
Proof.
  intros H. inversion H as [ev0 n m r T0 SW LP HB EV]. inversion T0 as [ev1 n1 m1 T1 BC SW1 OK1 HB1 EV1].
  pose proof (heard_algorithms _ _ _ _ _ _ T1) as HD.
  symmetry in EV. apply as_events_last in EV as (ex1 & -> & E1); [|eapply told_digests_got; eauto].
  rewrite <- EV1 in E1. apply as_events_last in E1 as (ex2 & -> & E2); [|eapply told_algorithms_got; eauto].
  rewrite <- E2 in HD, T1. unfold heard in HD. rewrite received_as_events in HD.
  apply (f_equal (@length N)) in HD. rewrite !map_length in HD. change (length ex2 = 3) in HD.
  split; [exact BC|]. split; [rewrite !app_length; cbn [length]; lia|].
  replace (firstn 3 ((ex2 ++ [(get_digests_msg, m1)]) ++ [(get_certificate_msg, m)])) with ex2; [exact T1|].
  rewrite <- app_assoc, firstn_app, HD, firstn_all2 by lia. cbn [firstn Nat.sub]. now rewrite app_nil_r.
Qed.
(** When the loop ends with success: the number of exchanges is what the announced
    capabilities require, and if they include certificates and challenges, the
    last response authenticates the whole log of the loop. *)
Theorem C86_complete root n ex Q : req_setting -> supply_ok supply -> peer_ok peer ->
  loop n [] (requester_new root) = (ex, LComplete Q) ->
  exists v own ct flags al, told_algorithms v own ct flags al (as_events (firstn 3 ex)) /\ length ex = rounds own flags /\
    req_state Q = Some ReqNewSession /\
    (length ex = 6 -> exists slot portion ss,
       sig_len (al_base_asym al) = Some ss /\
       authenticates root al slot portion (events_log ss (as_events ex)) ss (snd (nth 5 ex ([], [])))).
Proof.
  intros HS SO PO E. destruct (loop_ended root HS SO PO n [] _ (between_start root)) as [A _]. rewrite E in A. cbn [fst snd ended_as] in A.
  destruct A as (ex0 & req & rsp & Q0 & buf & Q1 & -> & B & E1 & EP & E2).
  destruct (round _ _ _ _ _ _ _ _ _ _ _ HS B (SO _) E1 (PO _ _ _ EP) E2) as (_ & C1 & C2 & _).
  pose proof (req_session_sent root _ Q0 _ _ req _ Q1 (proj1 B) (SO _) E1) as H1.
  assert (EQ : req_state Q = Some ReqNewSession).
  { unfold requester_handle_msg in E2. destruct (req_state Q1) as [st|]; [|discriminate].
    destruct (req_dispatch st (req_root Q1) rsp (req_transcript Q1)) as [[st'|e|p] t']; try discriminate.
    destruct st'; try discriminate. injection E2 as <-. reflexivity. }
  assert (EE : (as_events ex0 ++ [Sent req]) ++ [Got rsp] = as_events (ex0 ++ [(req, rsp)])) by (rewrite as_events_app, <- app_assoc; reflexivity).
  destruct (proj1 (C36_completion root _ Q1 rsp true Q HS H1 (PO _ _ _ EP) E2) eq_refl)
    as (v & own & ct & fl & al & [(C & T & BC)|[(C & (d & slot & portion & T) & BC & BH)|(C & BC & BH & d & slot & portion & ev0 & nonces & ss & T & EV & SL & AU)]]);
    exists v, own, ct, fl, al; rewrite EE in *.
  - pose proof (heard_algorithms _ _ _ _ _ _ T) as HD. unfold heard in HD. rewrite received_as_events in HD.
    apply (f_equal (@length N)) in HD. rewrite !map_length in HD. change (length (ex0 ++ [(req, rsp)]) = 3) in HD.
    rewrite firstn_all2 by lia. split; [exact T|]. split; [unfold rounds; now rewrite BC|]. split; [exact EQ|]. rewrite HD. discriminate.
  - destruct (told_first3 _ _ _ _ _ _ _ _ _ T) as (_ & L5 & T3). split; [exact T3|]. split; [unfold rounds; now rewrite BC, BH|].
    split; [exact EQ|]. rewrite L5. discriminate.
  - assert (EF : as_events (ex0 ++ [(req, rsp)]) = ev0 ++ challenges slot nonces ++ [Got rsp]) by (rewrite <- EE, EV, <- app_assoc; reflexivity).
    apply as_events_last_challenge in EF as (ex' & nn & EX & EX' & _); [|eapply told_certificate_got; eauto].
    apply app_inj_tail in EX as [-> ER]. rewrite <- EX' in T.
    destruct (told_first3 _ _ _ _ _ _ _ _ _ T) as (_ & L5 & T3).
    split. { rewrite firstn_app, L5. cbn [Nat.sub firstn]. rewrite app_nil_r. exact T3. }
    split. { unfold rounds. rewrite BC, BH, app_length, L5. reflexivity. }
    split; [exact EQ|]. intros _. exists slot, portion, ss. split; [exact SL|].
    rewrite app_nth2, L5 by lia. exact AU.
Qed.

(** * The other ends *)
(** The bytes next_request has to write in each round. *)
Definition request_size (k : nat) : nat := nth k [4; 12; 48; 4; 8; if feature_rand then 36 else 4] 0.
Lemma between_log root ex Q : req_setting -> between root ex Q -> t_get (req_transcript Q) = flat ex.
Proof.
  intros HS B. destruct (between_stage _ _ _ HS B) as (st & _ & _ & LE & RC). destruct B as (H & _ & QC).
  destruct (C37_transcript_is_log root _ Q HS H) as [L _]. assert (NC : forall m, In m (received (as_events ex)) -> code m <> 0x03%N).
  { rewrite received_as_events. intros m I E. apply (in_map code) in I. rewrite RC, E in I.
    assert (FB : forall k, k <= 5 -> ~ In 0x03%N (firstn k response_codes)).
    { intros k LK. do 6 (destruct k as [|k]; [cbn; intuition discriminate|]). lia. }
    exact (FB _ LE I). }
  rewrite (L NC 0). clear L NC H. revert QC RC. destruct ex as [|[? ?] [|[? ?] [|[? ?] [|[? ?] [|[? ?] [|? ?]]]]]]; [| | | | | |exfalso; cbn [length] in LE; lia];
    cbn [map fst snd length firstn request_codes response_codes]; intros QC RC;
    unfold as_events, events_log, flat; cbn [flat_map app fst snd fold_left map concat event_log]; try reflexivity.
  all: injection QC; injection RC; intros;
    repeat match goal with H : code _ = _ |- _ => rewrite H; clear H end; cbn [N.eqb Pos.eqb]; rewrite <- ?app_assoc, ?app_nil_r; reflexivity.
Qed.
(** In a build that build.rs accepts, next_request in the loop neither panics nor
    reports misuse; it fails only when the request does not fit write_buf or the
    transcript behind the messages so far. *)
Theorem C86_no_request root n ex e : built -> hash_contract -> supply_ok supply -> peer_ok peer ->
  loop n [] (requester_new root) = (ex, e) ->
  (forall p, e <> LAskPanicked p) /\
  (forall err, e = LNoRequest err ->
     err = ReqBufferFull /\
     (length (snd (supply (length ex))) < request_size (length ex) \/ TRANSCRIPT_SIZE < length (flat ex) + request_size (length ex))).
Proof.
  intros BU HC SO PO E. pose proof (built_setting BU HC) as HS.
  destruct (loop_ended root HS SO PO n [] _ (between_start root)) as [A _]. rewrite E in A. cbn [fst snd] in A. split.
  - intros p ->. cbn [ended_as] in A. destruct A as (Q0 & buf & Q1 & B & E1).
    apply (C47_next_never_panics root _ Q0 (fst (supply (length ex))) (snd (supply (length ex))) BU HC (proj1 B) (SO _) p). now rewrite E1.
  - intros err ->. cbn [ended_as] in A. destruct A as (Q0 & buf & Q1 & B & E1).
    pose proof (between_log _ _ _ HS B) as LG. destruct (between_stage _ _ _ HS B) as (st & ES & ST & LE & _).
    destruct (ask_total root Q0 _ (snd (supply (length ex))) st HS (session_reached _ _ _ (proj1 B)) (SO (length ex)) ES) as (v & F & M).
    rewrite E1 in M. cbn [fst] in M. rewrite LG, <- ST in *.
    assert (SE : forall size log, first_failing [sends (length (snd (supply (stage st)))) log size] v -> length log <= length (flat ex) -> request_size (stage st) = size ->
       err = ReqBufferFull /\ (length (snd (supply (stage st))) < request_size (stage st) \/ TRANSCRIPT_SIZE < length (flat ex) + request_size (stage st))).
    { intros size log FF LL ->. inversion FF as [|c v0 rest NC X1 X2|c v0 rest w C FR X1 X2]; subst.
      - cbn [ended] in M. split; [exact M|]. unfold log_fits in NC. lia.
      - inversion FR; subst. destruct M. }
    assert (NM : forall (c : Prop) w rest, first_failing ((c, w) :: rest) v -> c -> first_failing rest v).
    { intros c w rest FF HCC. inversion FF; subst; [contradiction|assumption]. }
    destruct BU as (cfgc & BU). pose proof (C44_accepted_config_never_fails _ _ _ _ _ BU) as C44.
    destruct st as [| |s|s|s|s|]; cbn [stage ask_checks] in *.
    + inversion F as [|c v0 rest NC X1 X2|]; subst; [|tauto]. destruct M.
    + exact (SE 4 [] F (Nat.le_0_l _) eq_refl).
    + refine (SE 12 _ (NM _ _ _ F _) (Nat.le_refl _) eq_refl).
      destruct C44 as (_ & C44 & _). intros name I. destruct (C44 name I) as [[x ->] _]. discriminate.
    + refine (SE 48 _ (NM _ _ _ F _) (Nat.le_refl _) eq_refl).
      destruct C44 as (_ & _ & C44 & _). intros name I. destruct (C44 name I) as [x ->]. discriminate.
    + destruct (qi_digests s); cbn [stage] in *.
      * refine (SE 8 _ (NM _ _ _ F _) (Nat.le_refl _) eq_refl). lia.
      * exact (SE 4 _ F (Nat.le_refl _) eq_refl).
    + exact (SE _ _ F (Nat.le_refl _) eq_refl).
    + lia.
Qed.
End Props.

(** * The two documented loops together *)
Section Pair.
Variables (cq : Config) (kq : Crypto) (cr : Config) (kr : Crypto).
Variables (root : list N) (slots : list (option FilledSlot)).
Variables (sq : nat -> list N * list N) (sr : nat -> Rnd * list N).
Definition round_input (k : nat) : step_input := mkIn (fst (sq k)) (snd (sq k)) (fst (sr k)) (snd (sr k)).
Notation loop := (@init_loop cq kq (@serving_peer cr kr slots sr) sq).

Lemma serve_snoc k R reqs req R1 out buf' R2 : @serve_loop cr kr sr k R reqs = Some R1 ->
  @responder_handle_msg cr kr R1 (fst (sr (k + length reqs))) req (snd (sr (k + length reqs))) = (Replied out (Ok tt), buf', R2) ->
  @serve_loop cr kr sr k R (reqs ++ [req]) = Some R2.
Proof.
  revert k R. induction reqs as [|r reqs IH]; intros k R; cbn [serve_loop length app].
  - intros [= ->]. rewrite Nat.add_0_r. destruct (sr k) as [rnd buf]. cbn [fst snd]. now intros ->.
  - destruct (sr k) as [rnd buf]. destruct (@responder_handle_msg cr kr R rnd r buf) as [[[o [u|e|p]|p] b] R'] eqn:E; try discriminate.
    intros H1 H2. apply IH with (1 := H1). now rewrite Nat.add_succ_r, <- Nat.add_succ_l in H2.
Qed.
Lemma faithful_loop ins ex b Q R : faithful cq kq cr kr root slots ins ex b Q R -> ins = map round_input (seq 0 (length ex)) ->
  @serve_loop cr kr sr 0 (@responder_new cr slots) (map fst ex) = Some R /\
  forall n, loop (length ex + n) [] (@requester_new cq root) = if b then (ex, LComplete Q) else loop n ex Q.
Proof.
  induction 1 as [|ins ex Q R i req out b Q' R' F IH X]; intros EI. { split; [reflexivity|]. intros n. reflexivity. }
  rewrite app_length in EI. cbn [length] in EI. rewrite seq_app, map_app in EI. cbn [seq map Nat.add] in EI.
  apply app_inj_tail in EI as [-> ->]. destruct (IH eq_refl) as [S L]. clear IH.
  destruct X as (_ & _ & Q1 & b1 & b2 & E1 & E2 & E3). unfold round_input in *. cbn [in_fresh in_reqbuf in_rnd in_rspbuf] in *. split.
  - rewrite map_app. cbn [map fst]. eapply serve_snoc; [exact S|]. rewrite map_length. exact E2.
  - intros n. rewrite app_length. cbn [length]. rewrite <- Nat.add_assoc. rewrite L. cbn [Nat.add init_loop].
    destruct (sq (length ex)) as [fresh buf]. cbn [fst snd] in E1. rewrite E1. unfold serving_peer. rewrite S.
    destruct (sr (length ex)) as [rnd rbuf]. cbn [fst snd] in E2. rewrite E2, E3. destruct b; reflexivity.
Qed.
End Pair.

(** A requester and a responder that fit together, both in their documented
    loops, with large enough buffers: the requester's loop ends with success,
    after the number of rounds the capabilities require, and the responder's goes
    on, with the same transcript. *)
Theorem C86_documented_pair cq kq cr kr root slots ownq ownr f sq sr :
  honest cq kq cr kr root slots ownq ownr f ->
  (forall k, input_ok (260 + length (chain_bytes (fs_chain f))) (round_input sq sr k)) ->
  exists ex Q R, @init_loop cq kq (@serving_peer cr kr slots sr) sq 6 [] (@requester_new cq root) = (ex, LComplete Q) /\
    length ex = rounds ownq ownr /\
    @serve_loop cr kr sr 0 (@responder_new cr slots) (map fst ex) = Some R /\
    t_get (req_transcript Q) = t_get (rsp_transcript R).
Proof.
  intros HH IO. set (ins := map (round_input sq sr) (seq 0 (rounds ownq ownr))).
  destruct (C39_honest_run cq kq cr kr root slots ownq ownr f ins HH) as (ex & Q & R & F & ET & _).
  { apply Forall_map, Forall_forall. intros k _. apply IO. }
  { unfold ins. now rewrite map_length, seq_length. }
  assert (LN : length ex = length ins). { clear -F. induction F; [reflexivity|]. rewrite !app_length. cbn [length]. lia. }
  assert (LR : length ex = rounds ownq ownr) by (rewrite LN; unfold ins; now rewrite map_length, seq_length).
  destruct (faithful_loop cq kq cr kr root slots sq sr ins ex true Q R F) as [S L]. { unfold ins. now rewrite LR. }
  exists ex, Q, R. split; [|auto]. specialize (L (6 - length ex)).
  replace (length ex + (6 - length ex)) with 6 in L; [exact L|].
  assert (rounds ownq ownr <= 6); [|lia]. unfold rounds. destruct (both cert_bit ownq ownr), (both chal_bit ownq ownr); lia.
Qed.

#[local] Existing Instance sample_cfg.
#[local] Existing Instance sample_crypto.
(** The sample builds in the loops, and some ways to end. *)
Definition sample_supply (k : nat) : list N * list N := (repeat (N.of_nat k mod 256)%N 32, big_buf).
Definition sample_serving (k : nat) : Rnd * list N := (sample_rnd (N.of_nat k mod 256)%N, big_buf).
Definition sample_loop (peer : list exchange -> list N -> option (list N)) := init_loop peer sample_supply 6 [] sample_q0.
Definition ending (e : loop_end) : N :=
  match e with LComplete _ => 0 | LNoRequest _ => 1 | LNoResponse _ => 2 | LRefused _ _ _ => 3 | LAskPanicked _ => 4 | LHearPanicked _ _ _ => 5 | LRunning _ => 6 end%N.
Example C86_example :
  req_setting /\ supply_ok sample_supply /\
  peer_ok (fun _ req => Some [0x11; 0x7F; 1; 0]%N) /\
  (forall k, input_ok (260 + length (chain_bytes (sample_chain 5))) (round_input sample_supply sample_serving k)) /\
  (let '(ex, e) := sample_loop (serving_peer sample_slots sample_serving) in (length ex, ending e)) = (6, 0%N) /\
  (let '(ex, e) := sample_loop (fun _ _ => Some [0x11; 0x7F; 1; 0]%N) in (length ex, ending e)) = (0, 3%N) /\
  (let '(ex, e) := sample_loop (fun ex req => if length ex <? 4 then serving_peer sample_slots sample_serving ex req else None) in (length ex, ending e)) = (4, 2%N) /\
  (let '(ex, e) := init_loop (serving_peer sample_slots sample_serving) (fun k => (repeat 1%N 32, repeat 0%N 20)) 6 [] sample_q0 in (length ex, ending e)) = (2, 1%N) /\
  (let '(ex, e) := sample_loop (fun _ _ => Some [0x11; 0x04]%N) in (length ex, ending e)) = (0, 5%N).
Proof.
  split; [exact sample_req_setting|].
  assert (BR : forall k, bytes (repeat (N.of_nat k mod 256)%N 32)).
  { intros k. apply Forall_forall. intros x I. apply repeat_spec in I. subst x. apply N.mod_lt. discriminate. }
  split. { intros k. split; [apply repeat_length|exact (BR k)]. }
  split. { intros ex req rsp [= <-]. apply bytes_check. reflexivity. }
  split. { intros k. split; [split; [apply repeat_length|exact (BR k)]|]. split; [split; [apply repeat_length|exact (BR k)]|].
    split; apply Nat.leb_le; vm_compute; reflexivity. }
  repeat (split; [vm_compute; reflexivity|]). vm_compute; reflexivity.
Qed.
Print Assumptions C86_loop_ends.
Print Assumptions C86_complete.
Print Assumptions C86_no_request.
Print Assumptions C86_documented_pair.
