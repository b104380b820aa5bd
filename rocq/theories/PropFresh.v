(** C65: are responses accepted only as answers, and is an authentication always
    fresh?  Not in general: a response that was never asked for is accepted, so
    that recorded messages authenticate to a requester which sent no CHALLENGE.
    If the requester is used as documented it is: see C65_fresh_partial. *)
From Verif Require Import Base BaseLemmas Config ConfigBuild Encoding MsgCommon MsgVersion MsgCapabilities MsgAlgorithms MsgDigest
     MsgCertificates MsgChallenge MsgError Transcript Crypto Responder Requester SpecWire SpecMsgs SpecResponder SpecRequester SpecAgree SpecAuth
     PropTools PropResponder PropRspState PropReqState PropAgree PropMitm PropAuth Sample SampleRun SampleReq.

(** The request which a response answers. *)
Definition asked_by (rsp_code : N) : N :=
  match rsp_code with
  | 0x04 => 0x84 | 0x61 => 0xE1 | 0x63 => 0xE3 | 0x01 => 0x81 | 0x02 => 0x82 | _ => 0x83
  end%N.

Section PropFresh.
Context {cfg : Config} {cr : Crypto}.

Lemma ends_app {A} (l : list A) n x : 0 < n -> exists l', l ++ repeat x n = l' ++ [x].
Proof. destruct n as [|n]; [lia|]. intros _. exists (l ++ repeat x n). rewrite <- app_assoc. f_equal. now rewrite <- repeat_cons. Qed.
Lemma asks_not_got l ev n q rsp : l ++ [Got rsp] = ev ++ asks n q -> n = 0.
Proof.
  destruct n as [|n]; [auto|]. intros E. exfalso. destruct (ends_app ev (S n) (Sent q) ltac:(lia)) as (l' & E'). unfold asks in E. rewrite E' in E.
  apply app_inj_tail in E as [_ E]. discriminate.
Qed.
(** The last thing [ev] records is not a request. *)
Definition unasked (ev : list event) : Prop := forall pre m, ev <> pre ++ [Sent m].
Lemma unasked_got ev m : unasked (ev ++ [Got m]).
Proof. intros pre q E. apply app_inj_tail in E as [_ E]. discriminate. Qed.
Lemma unasked_nil : unasked [].
Proof. intros pre q E. destruct pre; discriminate. Qed.
Lemma told_version_unasked v ev : told_version v ev -> unasked ev.
Proof. intros []. apply unasked_got. Qed.
Lemma told_capabilities_unasked v own ct fl ev : told_capabilities v own ct fl ev -> unasked ev.
Proof. intros []. rewrite app_assoc. apply unasked_got. Qed.
Lemma told_algorithms_unasked v own ct fl al ev : told_algorithms v own ct fl al ev -> unasked ev.
Proof. intros []. rewrite app_assoc. apply unasked_got. Qed.
Lemma told_digests_unasked v own ct fl al d ev : told_digests v own ct fl al d ev -> unasked ev.
Proof. intros []. rewrite app_assoc. apply unasked_got. Qed.
Lemma told_certificate_unasked v own ct fl al d s p ev : told_certificate v own ct fl al d s p ev -> unasked ev.
Proof. intros []. rewrite app_assoc. apply unasked_got. Qed.

Definition answers (ev : list event) (rsp : list N) : Prop :=
  (exists ev' q, ev = ev' ++ [Sent q] /\ code q = asked_by (code rsp)) \/ (unasked ev /\ code rsp <> 0x61%N).
Lemma answers_asks ev0 n q ev rsp : ev = ev0 ++ asks n q -> unasked ev0 -> code q = asked_by (code rsp) -> (n = 0 -> code rsp <> 0x61%N) -> answers ev rsp.
Proof.
  intros -> U C Z. destruct n as [|n].
  - right. cbn [asks repeat]. rewrite app_nil_r. auto.
  - left. destruct (ends_app ev0 (S n) (Sent q) ltac:(lia)) as (l & E). exists l, q. split; [exact E|exact C].
Qed.
Lemma starts_is a b l m : starts_with ([a; b] ++ l) m -> code m = b.
Proof. intros (r & ->). reflexivity. Qed.
Lemma answers_version v ev rsp : told_version v (ev ++ [Got rsp]) -> answers ev rsp.
Proof.
  intros T. inversion T as [n m es SW _ _ _ _ E]. apply app_inj_tail in E as [E1 E2]. injection E2 as ->.
  apply starts_is in SW. apply (answers_asks [] n get_version_bytes); [now rewrite <- E1|exact unasked_nil|now rewrite SW|now rewrite SW].
Qed.
Lemma answers_capabilities v own ct fl ev rsp : told_capabilities v own ct fl (ev ++ [Got rsp]) -> answers ev rsp.
Proof.
  intros T. inversion T as [ev0 n m T0 _ Z SW _ _ E]. rewrite app_assoc in E. apply app_inj_tail in E as [E1 E2]. injection E2 as ->.
  apply starts_is in SW. eapply answers_asks; [symmetry; exact E1|eapply told_version_unasked; eauto|now rewrite SW|lia].
Qed.
Lemma answers_algorithms v own ct fl al ev rsp : told_algorithms v own ct fl al (ev ++ [Got rsp]) -> answers ev rsp.
Proof.
  intros T. inversion T as [ev0 n m na fs body T0 _ SW _ _ _ _ _ E]. rewrite app_assoc in E. apply app_inj_tail in E as [E1 E2]. injection E2 as ->.
  apply starts_is in SW. eapply answers_asks; [symmetry; exact E1|eapply told_capabilities_unasked; eauto|now rewrite SW|now rewrite SW].
Qed.
Lemma answers_digests v own ct fl al d ev rsp : told_digests v own ct fl al d (ev ++ [Got rsp]) -> answers ev rsp.
Proof.
  intros T. inversion T as [ev0 n m T0 _ SW _ _ E]. rewrite app_assoc in E. apply app_inj_tail in E as [E1 E2]. injection E2 as ->.
  apply starts_is in SW. eapply answers_asks; [symmetry; exact E1|eapply told_algorithms_unasked; eauto|now rewrite SW|now rewrite SW].
Qed.
Lemma answers_certificate v own ct fl al d s p ev rsp : told_certificate v own ct fl al d s p (ev ++ [Got rsp]) -> answers ev rsp.
Proof.
  intros T. inversion T as [ev0 n m rem T0 SW _ _ E]. rewrite app_assoc in E. apply app_inj_tail in E as [E1 E2]. injection E2 as ->.
  apply starts_is in SW. eapply answers_asks; [symmetry; exact E1|eapply told_digests_unasked; eauto|now rewrite SW|now rewrite SW].
Qed.

(** A response accepted in a session is the answer to the last thing the
    requester sent, or nothing was sent since the last response: the latter is
    never accepted for CAPABILITIES. *)
Theorem C65_answers_partial root ev R rsp b R' :
  req_setting -> req_session root ev R -> bytes rsp -> requester_handle_msg R rsp = (Ok b, R') ->
  (exists ev' q, ev = ev' ++ [Sent q] /\ code q = asked_by (code rsp)) \/
  ((forall ev' q, ev <> ev' ++ [Sent q]) /\ code rsp <> 0x61%N).
Proof.
  intros HS H HB E. change (answers ev rsp).
  pose proof (req_session_got root ev R rsp b R' H HB E) as H'.
  destruct (C36_session_grammar root _ R' HS H') as (st & _ & N).
  destruct st as [| |s|s|s|s|]; cbn [req_now] in N.
  - contradiction.
  - destruct N as (n & N). apply (asks_not_got ev [] n) in N as Z. subst n. destruct ev; discriminate.
  - destruct N as (ev0 & n & own & T & N & _). apply asks_not_got in N as Z. subst n. cbn [asks repeat] in N. rewrite app_nil_r in N. subst ev0.
    eapply answers_version; eauto.
  - destruct N as (ev0 & n & na & T & N & _). apply asks_not_got in N as Z. subst n. cbn [asks repeat] in N. rewrite app_nil_r in N. subst ev0.
    eapply answers_capabilities; eauto.
  - destruct N as [N _]. destruct (qi_digests s) as [d|].
    + destruct N as (ev0 & n & T & N). apply asks_not_got in N as Z. subst n. cbn [asks repeat] in N. rewrite app_nil_r in N. subst ev0.
      eapply answers_digests; eauto.
    + destruct N as (ev0 & n & T & N). apply asks_not_got in N as Z. subst n. cbn [asks repeat] in N. rewrite app_nil_r in N. subst ev0.
      eapply answers_algorithms; eauto.
  - destruct N as (ev0 & nonces & d & T & N & _). destruct nonces as [|x l _] using rev_ind.
    + cbn [challenges map] in N. rewrite app_nil_r in N. subst ev0. eapply answers_certificate; eauto.
    + exfalso. unfold challenges in N. rewrite map_app in N. cbn [map] in N. rewrite app_assoc in N. apply app_inj_tail in N as [_ N]. discriminate.
  - destruct N as (v & own & ct & fl & al & [[_ T]|[(_ & d & slot & portion & T)|(d & slot & portion & ev0 & nonces & rsp0 & ss & _ & T & _ & N & _ & A)]]).
    + eapply answers_algorithms; eauto.
    + eapply answers_certificate; eauto.
    + rewrite app_assoc in N. apply app_inj_tail in N as [-> N]. injection N as <-.
      destruct A as (m & rsvd & olen & chain & SW & _). apply starts_is in SW. destruct nonces as [|x l _] using rev_ind.
      * right. cbn [challenges map]. rewrite app_nil_r. split; [eapply told_certificate_unasked; eauto|now rewrite SW].
      * left. exists (ev0 ++ challenges slot l), (challenge_msg slot x). split; [|now rewrite SW].
        unfold challenges. rewrite map_app. cbn [map]. now rewrite app_assoc.
Qed.
End PropFresh.

Section Fresh.
Variables (cq : Config) (kq : Crypto) (cr : Config) (kr : Crypto).
(** A requester that wrote a CHALLENGE with a nonce which no responder's session
    has in its messages (because all of them are older, say) accepts no
    CHALLENGE_AUTH whatever, unless a responder signed a log that collides with its own. *)
Theorem C65_fresh_partial root ev Q fresh buf out buf' Q1 rsp Q2 :
  @req_setting cq kq -> same_hash kq kr ->
  keys_held_by_responders kq cr kr (fun ex => forall ss, ~ occurs_in (@wire_nonce cq fresh) (log_of ss ex)) root trust_time ->
  @req_session cq kq root ev Q -> fresh_ok fresh -> @requester_next_request cq kq Q fresh buf = (Ok out, buf', Q1) ->
  bytes rsp -> code rsp = 0x03%N ->
  @requester_handle_msg cq kq Q1 rsp = (Ok true, Q2) ->
  exists h ss, signed_collision kq cr kr (fun ex => forall ss, ~ occurs_in (@wire_nonce cq fresh) (log_of ss ex)) root trust_time h
    (events_log ss ev ++ out ++ firstn (length rsp - ss) rsp).
Proof.
  intros HQ SH HK H FR E1 HB C3 E2.
  destruct (C64_authentication cq kq cr kr _ root ev Q fresh buf out buf' Q1 rsp Q2 HQ SH HK H FR E1 HB E2 C3) as (leaf & h & slot & ss & data & RS & CE & _ & OC & X).
  cbv zeta in OC, X. destruct X as [->|C]; [exfalso|exists h, ss, leaf, data; auto].
  destruct RS as (slots & ex & req & u & sg & R & s & sl & t & nn & fi & r & _ & _ & HP & _ & _ & (rest & ER) & _ & _ & _ & ED & _).
  apply (HP (length sg)). unfold log_of. rewrite fold_left_app. cbn [fold_left log_one].
  assert (EC : code req = 0x83%N) by (rewrite ER; reflexivity). rewrite EC. cbn [N.eqb Pos.eqb].
  rewrite app_length. replace (length u + length sg - length sg) with (length u) by lia.
  rewrite firstn_app, Nat.sub_diag, firstn_all, app_nil_r. unfold log_of in ED. now rewrite <- ED.
Qed.
End Fresh.

(** * Unsolicited responses *)
#[local] Existing Instance sample_cfg.
(** The world of C64_example: one key, one responder, one signature ever, none
    forgeable.  The attacker recorded that responder's run, in which it chose
    the nonce itself, and appends its CHALLENGE to the recorded CERTIFICATE. *)
Definition recorded : list (list N) := Eval vm_compute in
  firstn 4 sample_responses ++ [sample_response 4 ++ sample_request 5].
Definition victim : list event * bool * Requester :=
  match @drive sample_cfg world_crypto 2 recorded sample_q0 with Some x => x | None => ([], false, sample_q0) end.
Lemma victim_session : @req_session sample_cfg world_crypto [1; 2; 3]%N (fst (fst victim)) (snd victim).
Proof.
  assert (E : @drive sample_cfg world_crypto 2 recorded sample_q0 = Some victim) by (vm_compute; reflexivity).
  destruct victim as [[ev b] R]. cbn [fst snd].
  apply (@drive_session sample_cfg world_crypto [1; 2; 3]%N _ _ _ [] _ _ _ (@req_session_new sample_cfg world_crypto _)) in E; [exact E| |reflexivity].
  repeat (constructor; [vm_compute; reflexivity|]). constructor.
Qed.
(** The requester completes by authentication, although nobody can forge, it never
    sent a CHALLENGE and used no random number: the same recording works forever. *)
Theorem C65_replay_refuted : exists root ev Q auth Q',
  @req_setting sample_cfg world_crypto /\ same_hash world_crypto sample_crypto /\
  keys_held_by_responders world_crypto sample_cfg sample_crypto (fun ex => Forall exact_request (map fst ex)) root trust_time /\
  @req_session sample_cfg world_crypto root ev Q /\ bytes auth /\ code auth = 0x03%N /\
  @requester_handle_msg sample_cfg world_crypto Q auth = (Ok true, Q') /\
  (forall m, In (Sent m) ev -> code m <> 0x83%N) /\ (forall m, In m (received ev) -> code m <> 0x03%N) /\
  exists pairs, ev = flat_map (fun p => [Sent (fst p); Got (snd p)]) pairs.
Proof.
  exists [1; 2; 3]%N, (fst (fst victim)), (snd victim), (sample_response 5).
  destruct (@requester_handle_msg sample_cfg world_crypto (snd victim) (sample_response 5)) as [r Q'] eqn:E. exists Q'.
  split; [exact sample_req_setting|]. split; [intros h d; reflexivity|]. split; [apply world_keys; exact sample_exact_requests|].
  split; [exact victim_session|]. split; [apply bytes_check; vm_compute; reflexivity|]. split; [reflexivity|].
  split; [|split; [|split]].
  - assert (X : fst (@requester_handle_msg sample_cfg world_crypto (snd victim) (sample_response 5)) = Ok true) by (vm_compute; reflexivity).
    rewrite E in X. cbn [fst] in X. now subst r.
  - intros m I. assert (X : forallb (fun e => match e with Sent m => negb (code m =? 0x83)%N | Got _ => true end) (fst (fst victim)) = true) by (vm_compute; reflexivity).
    rewrite forallb_forall in X. apply X in I. intros EC. rewrite EC in I. discriminate.
  - intros m I. assert (X : forallb (fun m => negb (code m =? 0x03)%N) (received (fst (fst victim))) = true) by (vm_compute; reflexivity).
    rewrite forallb_forall in X. apply X in I. intros EC. rewrite EC in I. discriminate.
  - assert (X : exists a b c d e f g h i j, fst (fst victim) = [Sent a; Got b; Sent c; Got d; Sent e; Got f; Sent g; Got h; Sent i; Got j])
      by (do 10 eexists; vm_compute; reflexivity).
    destruct X as (a & b & c & d & e & f & g & h & i & j & ->). exists [(a, b); (c, d); (e, f); (g, h); (i, j)]. reflexivity.
Qed.

(** An unsolicited CAPABILITIES is not even refused: the requester panics. *)
Theorem C65_unsolicited_panic_refuted : exists root ev Q rsp,
  @req_setting sample_cfg sample_crypto /\ @req_session sample_cfg sample_crypto root ev Q /\ bytes rsp /\ code rsp = 0x61%N /\
  length ev = 2 /\ fst (@requester_handle_msg sample_cfg sample_crypto Q rsp) = Panic PUnwrap.
Proof.
  exists [1; 2; 3]%N, (driven_ev 1), (driven_R 1), (sample_response 1).
  split; [exact sample_req_setting|]. split; [apply driven_session; lia|]. split; [apply bytes_check; vm_compute; reflexivity|].
  split; [reflexivity|]. split; vm_compute; reflexivity.
Qed.

(** * The hypotheses are met *)
Lemma log_of_In ss x : forall ex log, In x (fold_left (log_one ss) ex log) -> In x log \/ exists e, In e ex /\ (In x (fst e) \/ In x (snd e)).
Proof.
  induction ex as [|e ex IH]; intros log I; [now left|]. cbn [fold_left] in I. apply IH in I as [I|(e' & I & J)].
  - assert (X : In x (fst e) \/ In x (snd e) \/ In x log).
    { unfold log_one in I. destruct e as [a b]. cbn [fst snd].
      destruct (code a =? 0x84)%N; [rewrite in_app_iff in I; tauto|]. destruct (code a =? 0x83)%N; rewrite !in_app_iff in I; [|tauto].
      destruct I as [I|[I|I]]; auto. right. left. rewrite <- (firstn_skipn (length b - ss) b), in_app_iff. now left. }
    destruct X as [X|[X|X]]; [right; exists e; cbn; auto..|now left].
  - right. exists e'. split; [now right|exact J].
Qed.

(** In the world of C64_example no responder's session has the nonce 77...77;
    the recorded CHALLENGE_AUTH is refused by a requester that used this nonce. *)
Example C65_example :
  @req_setting sample_cfg world_crypto /\ same_hash world_crypto sample_crypto /\
  keys_held_by_responders world_crypto sample_cfg sample_crypto
    (fun ex => forall ss, ~ occurs_in (@wire_nonce sample_cfg (repeat 77%N 32)) (log_of ss ex)) [1; 2; 3]%N trust_time /\
  exists ev Q Q1 out buf', @req_session sample_cfg world_crypto [1; 2; 3]%N ev Q /\ fresh_ok (repeat 77%N 32) /\
    @requester_next_request sample_cfg world_crypto Q (repeat 77%N 32) big_buf = (Ok out, buf', Q1) /\
    code (sample_response 5) = 0x03%N /\
    fst (@requester_handle_msg sample_cfg world_crypto Q1 (sample_response 5)) = Err (ReqChallengeAuth InvalidSignature).
Proof.
  split; [exact sample_req_setting|]. split; [intros h d; reflexivity|]. split.
  - apply world_keys. intros ss (a & b & E).
    assert (I : In 77%N (log_of ss sample_exchanges)) by (rewrite E, !in_app_iff; right; left; vm_compute; auto).
    unfold log_of in I. apply log_of_In in I as [[]|(e & I & J)].
    assert (X : forallb (fun e => forallb (fun x => negb (x =? 77)%N) (fst e ++ snd e)) sample_exchanges = true) by (vm_compute; reflexivity).
    rewrite forallb_forall in X. apply X in I. rewrite forallb_forall in I.
    assert (K : In 77%N (fst e ++ snd e)) by (rewrite in_app_iff; exact J). apply I in K. discriminate.
  - assert (ED : @drive sample_cfg world_crypto 2 (firstn 5 sample_responses) sample_q0 = Some (world_driven 5)) by (vm_compute; reflexivity).
    exists (fst (fst (world_driven 5))), (snd (world_driven 5)).
    destruct (@requester_next_request sample_cfg world_crypto (snd (world_driven 5)) (repeat 77%N 32) big_buf) as [[o buf'] Q1] eqn:E1.
    assert (EO : exists out, o = Ok out).
    { replace o with (fst (fst (@requester_next_request sample_cfg world_crypto (snd (world_driven 5)) (repeat 77%N 32) big_buf))) by (rewrite E1; reflexivity).
      eexists. vm_compute. reflexivity. }
    destruct EO as (out & ->). exists Q1, out, buf'. split; [|split; [|split; [reflexivity|split; [reflexivity|]]]].
    + destruct (world_driven 5) as [[ev b] R]. cbn [fst snd].
      apply (@drive_session sample_cfg world_crypto [1; 2; 3]%N _ _ _ [] _ _ _ (@req_session_new sample_cfg world_crypto _)) in ED; [exact ED| |].
      * repeat (constructor; [vm_compute; reflexivity|]). constructor.
      * reflexivity.
    + split; [reflexivity|]. apply bytes_check. vm_compute. reflexivity.
    + assert (ER : fst (let '(_, _, Q1) := @requester_next_request sample_cfg world_crypto (snd (world_driven 5)) (repeat 77%N 32) big_buf in
              @requester_handle_msg sample_cfg world_crypto Q1 (sample_response 5)) = Err (ReqChallengeAuth InvalidSignature)) by (vm_compute; reflexivity).
      rewrite E1 in ER. exact ER.
Qed.
(** Both alternatives of C65_answers_partial occur: see C65_example (asked) and
    C65_replay_refuted (not asked). *)
Print Assumptions C65_answers_partial.
Print Assumptions C65_fresh_partial.
Print Assumptions C65_replay_refuted.
Print Assumptions C65_unsolicited_panic_refuted.
