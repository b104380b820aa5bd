(** C75: a session is finite: between two GET_VERSION requests only so many
    messages are exchanged as the transcript has room for. *)
From Verif Require Import Base BaseLemmas Config Encoding MsgCommon MsgVersion MsgCapabilities MsgAlgorithms MsgDigest
     MsgCertificates MsgChallenge MsgError Transcript Crypto Responder Requester SpecWire SpecMsgs SpecResponder SpecRequester
     PropTools PropTranscript RspParts RspStep PropResponder PropRspState ReqStep ReqMsg PropRequester PropReqState Sample SampleRun SampleReq.

#[local] Opaque chain_bytes.
#[local] Arguments Nat.leb : simpl never.

(** What an exchange adds to the log: request and response, without the signature
    ([ss] bytes) of a CHALLENGE_AUTH. *)
Definition logged (ss : nat) (x : list N * list N) : nat :=
  length (fst x) + (length (snd x) - if (code (fst x) =? 0x83)%N then ss else 0).
Definition total (f : list N * list N -> nat) (ex : list (list N * list N)) : nat := fold_right Nat.add 0 (map f ex).
(** No GET_VERSION among these exchanges. *)
Definition no_restart (ex : list (list N * list N)) : Prop := Forall (fun x => code (fst x) <> 0x84%N) ex.

(** The same for the requester: the messages sent; those received. *)
Definition sent (ev : list event) : list (list N) := flat_map (fun e => match e with Sent m => [m] | Got _ => [] end) ev.
Definition event_logged (ss : nat) (e : event) : nat :=
  match e with Sent m => length m | Got m => length m - if (code m =? 0x03)%N then ss else 0 end.
Definition event_total (f : event -> nat) (ev : list event) : nat := fold_right Nat.add 0 (map f ev).
Definition no_new_ask (ev : list event) : Prop := Forall (fun m => code m <> 0x84%N) (sent ev).

Section PropSession.
Context {cfg : Config} {cr : Crypto}.

Lemma sum_app l : forall l', fold_right Nat.add 0 (l ++ l') = fold_right Nat.add 0 l + fold_right Nat.add 0 l'.
Proof. induction l as [|a l IH]; intros l'; simpl; [reflexivity|]. rewrite IH. lia. Qed.
Lemma log_of_total ss before : forall cur, no_restart cur -> total (logged ss) cur <= length (log_of ss (before ++ cur)).
Proof.
  induction cur as [|[req out] cur IH] using rev_ind; intros H; [apply Nat.le_0_l|].
  apply Forall_app in H as [H1 H2]. inversion H2 as [|? ? NV _]; subst. cbn [fst] in NV. specialize (IH H1).
  unfold total in *. rewrite map_app, sum_app, app_assoc, log_of_snoc. cbn [map fold_right].
  assert (E : length (log_of ss (before ++ cur)) + logged ss (req, out) <= length (log_one ss (log_of ss (before ++ cur)) (req, out))).
  { unfold logged, log_one. cbn [fst snd]. apply N.eqb_neq in NV. rewrite NV. destruct (code req =? 0x83)%N; rewrite !app_length; [rewrite firstn_length|]; lia. }
  lia.
Qed.

(** The bytes exchanged since the last GET_VERSION fit the transcript. *)
Theorem C75_responder_bytes slots before cur R st : setting slots -> session slots (before ++ cur) R -> no_restart cur ->
  rsp_state R = Some st -> total (logged (negotiated_sig_len st)) cur <= TRANSCRIPT_SIZE.
Proof.
  intros HS H NR ES. pose proof (C27_transcript_is_log slots _ R st HS H ES) as G.
  destruct (reached_ok _ _ (PropResponder.session_reached _ _ _ H)) as [_ W]. pose proof (t_get_length _ W) as L. destruct W as [_ W].
  pose proof (log_of_total (negotiated_sig_len st) before cur NR). rewrite <- G, L in *. unfold t_len in *. lia.
Qed.

Lemma served_room slots rnd req st log out st' log' : served slots rnd req st log out st' log' ->
  code req <> 0x84%N -> length log + 7 <= length log'.
Proof.
  intros S NV. destruct S as [st log NE (r & ->) | s log ct flags own out (r & ->) OB NM FN ->
    | s log body na al es fs out (r & ->) NF AC -> | s log mask out (r & ->) L MS CF ->
    | s log slot off len out (r & ->) L1 L2 L3 CF -> | s log slot t nonce mask filled ss sg out (r & ->) NO NTH CF HU SL LE MS -> SG LS].
  - exfalso. apply NV. reflexivity.
  - rewrite !app_length. simpl. lia.
  - unfold algorithms_layout. rewrite !app_length. simpl. lia.
  - unfold digests_layout. rewrite !app_length. rewrite app_length in L. simpl in *. lia.
  - unfold certificate_layout, get_certificate_layout. rewrite !app_length. simpl. lia.
  - unfold unsigned_auth, challenge_layout, challenge_auth_layout. rewrite !app_length. cbn [length]. lia.
Qed.
(** Whatever is asked: at most TRANSCRIPT_SIZE / 7 requests are answered until the
    next GET_VERSION (or reset). *)
Theorem C75_responder_count slots before : forall cur R, setting slots -> session slots (before ++ cur) R -> no_restart cur ->
  7 * length cur <= TRANSCRIPT_SIZE.
Proof.
  enough (X : forall cur R, setting slots -> session slots (before ++ cur) R -> no_restart cur -> 7 * length cur <= length (t_get (rsp_transcript R))).
  { intros cur R HS H NR. specialize (X cur R HS H NR). destruct (reached_ok _ _ (PropResponder.session_reached _ _ _ H)) as [_ W].
    pose proof (t_get_length _ W) as L. destruct W as [_ W]. unfold t_len in *. lia. }
  induction cur as [|[req out] cur IH] using rev_ind; intros R HS H NR; [simpl; lia|].
  apply Forall_app in NR as [N1 N2]. inversion N2 as [|? ? NV _]; subst. cbn [fst] in NV. rewrite app_assoc in H.
  destruct (session_inv _ _ _ _ H) as (R0 & rnd & rsp & rsp' & H0 & HB & RK & HH). cbn [fst snd] in *.
  destruct (step_sound slots R0 rnd req rsp out rsp' R HS (PropResponder.session_reached _ _ _ H0) HB RK HH) as (st & st' & log' & _ & _ & G & SV & _).
  pose proof (served_room _ _ _ _ _ _ _ _ SV NV). specialize (IH R0 HS H0 N1). rewrite app_length, G. simpl. lia.
Qed.

Lemma no_new_ask_snoc ev e : no_new_ask (ev ++ [e]) -> no_new_ask ev /\ (forall m, e = Sent m -> code m <> 0x84%N).
Proof.
  unfold no_new_ask, sent. rewrite flat_map_app. intros H. apply Forall_app in H as [H1 H2]. split; [exact H1|].
  intros m ->. cbn in H2. now inversion H2.
Qed.
Lemma events_log_total ss before : forall cur, no_new_ask cur -> event_total (event_logged ss) cur <= length (events_log ss (before ++ cur)).
Proof.
  induction cur as [|e cur IH] using rev_ind; intros H; [apply Nat.le_0_l|].
  apply no_new_ask_snoc in H as [H1 H2]. specialize (IH H1).
  unfold event_total in *. rewrite map_app, sum_app, app_assoc, events_log_snoc. cbn [map fold_right].
  assert (E : length (events_log ss (before ++ cur)) + event_logged ss e <= length (event_log ss (events_log ss (before ++ cur)) e)).
  { destruct e as [m|m]; unfold event_logged, event_log.
    - specialize (H2 m eq_refl). apply N.eqb_neq in H2. rewrite H2, app_length. lia.
    - destruct (code m =? 3)%N; rewrite app_length; [rewrite firstn_length|]; lia. }
  lia.
Qed.
(** The same for the requester, for any signature size of the algorithm selected. *)
Theorem C75_requester_bytes root before cur R al ss : req_setting -> req_session root (before ++ cur) R -> no_new_ask cur ->
  SpecRequester.selected (before ++ cur) al -> sig_len (al_base_asym al) = Some ss ->
  event_total (event_logged ss) cur <= TRANSCRIPT_SIZE.
Proof.
  intros HS H NA SL EL. destruct (C37_transcript_is_log root _ R HS H) as [_ G]. specialize (G al ss SL EL).
  destruct (session_now root _ R HS H) as (st & _ & _ & W & _). pose proof (t_get_length _ W) as L. destruct W as [_ W].
  pose proof (events_log_total ss before cur NA). rewrite <- G, L in *. unfold t_len in *. lia.
Qed.

Lemma requested_length fresh st log out st' log' : requested fresh st log out st' log' -> 4 <= length out.
Proof.
  intros H. destruct H as [log|s log own out _ _ ->|s log na out _ ->|s log out _ ->|s log out _ _ ->|s log out ->].
  - simpl. lia.
  - unfold capabilities_msg. rewrite app_length. simpl. lia.
  - unfold offer_msg, negotiate_layout. rewrite !app_length. simpl. lia.
  - simpl. lia.
  - unfold get_certificate_msg, get_certificate_layout. rewrite !app_length. simpl. lia.
  - unfold challenge_msg, challenge_layout. rewrite !app_length. simpl. lia.
Qed.
Lemma sent_lengths root ev R : req_setting -> req_session root ev R -> Forall (fun m => 4 <= length m) (sent ev).
Proof.
  intros HS H. induction H as [|ev R fresh buf out buf' R' H IH FO E|ev R fresh buf e buf' R' H IH FO E|ev R rsp b R' H IH HB E].
  - constructor.
  - unfold sent. rewrite flat_map_app. apply Forall_app. split; [exact IH|]. constructor; [|constructor].
    destruct (session_now root _ R HS H) as (st & _ & _ & W & _). destruct (next_sound R fresh buf out buf' R' W E) as (st0 & st' & log' & _ & RQ & _).
    exact (requested_length _ _ _ _ _ _ RQ).
  - exact IH.
  - unfold sent. rewrite flat_map_app. apply Forall_app. split; [exact IH|constructor].
Qed.
Lemma sent_total ss cur : Forall (fun m => 4 <= length m) (sent cur) -> 4 * length (sent cur) <= event_total (event_logged ss) cur.
Proof.
  induction cur as [|[m|m] cur IH]; intros H; [apply Nat.le_0_l| |].
  - change (sent (Sent m :: cur)) with (m :: sent cur) in *. inversion H; subst. specialize (IH H3). unfold event_total in *. cbn [map fold_right length event_logged]. lia.
  - change (sent (Got m :: cur)) with (sent cur) in *. specialize (IH H). unfold event_total in *. cbn [map fold_right]. lia.
Qed.
(** At most TRANSCRIPT_SIZE / 4 requests follow a GET_VERSION, however often the
    caller retries; and at most six responses are accepted. *)
Theorem C75_requester_count root before cur R : req_setting -> req_session root (before ++ cur) R -> no_new_ask cur ->
  4 * length (sent cur) <= TRANSCRIPT_SIZE /\ length (received (before ++ cur)) <= 6.
Proof.
  intros HS H NA. split.
  - destruct (session_now root _ R HS H) as (st & _ & _ & W & _ & _ & ss & _ & _ & G).
    pose proof (t_get_length _ W) as L. destruct W as [_ W].
    pose proof (events_log_total ss before cur NA) as T. rewrite <- G, L in T. unfold t_len in *.
    pose proof (sent_lengths root _ R HS H) as F. unfold sent in F. rewrite flat_map_app in F. apply Forall_app in F as [_ F].
    pose proof (sent_total ss cur F). lia.
  - destruct (C36_protocol_order root _ R HS H) as (k & E). rewrite <- (map_length code), E, firstn_length. simpl. lia.
Qed.
End PropSession.

#[local] Existing Instance sample_cfg.
#[local] Existing Instance sample_crypto.
(** The sample session with seven exchanges: the last six, without the VERSION
    exchange, are counted. *)
Example C75_example : exists x cur st, served_ex sample_twice = [x] ++ cur /\ length cur = 6 /\ no_restart cur /\
  setting sample_slots /\ session sample_slots ([x] ++ cur) (served_R sample_twice) /\ rsp_state (served_R sample_twice) = Some st.
Proof.
  pose proof sample_twice_session as S. remember (served_ex sample_twice) as l eqn:E.
  destruct l as [|x cur]; [vm_compute in E; discriminate|]. exists x, cur.
  assert (F : no_restart cur /\ length cur = 6).
  { assert (EL : cur = tl (served_ex sample_twice)) by now rewrite <- E. rewrite EL. split; [|vm_compute; reflexivity].
    apply Forall_forall. intros y IY. intros C.
    assert (X : forallb (fun x => negb (code (fst x) =? 0x84)%N) (tl (served_ex sample_twice)) = true) by (vm_compute; reflexivity).
    rewrite forallb_forall in X. specialize (X y IY). rewrite C in X. discriminate. }
  destruct F as [F1 F2]. destruct (rsp_state (served_R sample_twice)) as [st|] eqn:ES; [|vm_compute in ES; discriminate].
  exists st. refine (conj eq_refl (conj F2 (conj F1 (conj sample_setting (conj S eq_refl))))). 
Qed.
Example C75_requester_example : req_setting /\ req_session [1; 2; 3]%N (firstn 2 (driven_ev 5) ++ skipn 2 (driven_ev 5)) (driven_R 5) /\
  no_new_ask (skipn 2 (driven_ev 5)) /\ length (sent (skipn 2 (driven_ev 5))) = 4.
Proof.
  split; [exact sample_req_setting|]. rewrite firstn_skipn. split; [exact (driven_session 5 ltac:(lia))|].
  split; [|vm_compute; reflexivity]. unfold no_new_ask. apply Forall_forall. intros y IY C.
  assert (X : forallb (fun m => negb (code m =? 0x84)%N) (sent (skipn 2 (driven_ev 5))) = true) by (vm_compute; reflexivity).
  rewrite forallb_forall in X. specialize (X y IY). rewrite C in X. discriminate.
Qed.
