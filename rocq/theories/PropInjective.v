(** C94: one answered CHALLENGE authenticates to one requester session only.
    False with trailing bytes; true when all messages are exactly framed. *)
From Verif Require Import Base BaseLemmas Config ConfigBuild Encoding MsgCommon MsgVersion MsgCapabilities MsgAlgorithms MsgDigest
     MsgCertificates MsgChallenge MsgError Transcript Crypto Responder Requester SpecWire SpecMsgs SpecResponder SpecRequester SpecAgree SpecAuth
     PropTools PropAlg PropTables PropRspState PropReqState PropAgree PropMitm Sample SampleRun SampleReq.

Section Injective.
Variables (cq : Config) (kq : Crypto) (cr : Config) (kr : Crypto).

(** The exchanges [exq] of a requester ended in an authentication it accepted, with
    the algorithms [al], over the digest that a responder in the state [R] signed;
    no response had trailing bytes. *)
Definition authenticated_by (root : list N) (exq : list (list N * list N)) (Q : Requester) (al : Algorithms) (R : Responder) (id : RspIdState) : Prop :=
  @req_session cq kq root (as_events exq) Q /\
  (exists pre req auth, exq = pre ++ [(req, auth)] /\ code auth = 0x03%N) /\
  selected (as_events exq) al /\
  (exists ss, sig_len (al_base_asym al) = Some ss /\
    Forall (@exact_response cq (hash_len (al_base_hash al)) ss) (map snd exq)) /\
  @sha kq (al_base_hash al) (t_get (req_transcript Q)) = @sha kr (al_base_hash (ri_algorithms id)) (t_get (rsp_transcript R)).

Lemma same_requests ss exq recent : Forall2 (same_exchange ss) exq recent -> map fst exq = map fst recent.
Proof. induction 1 as [|x y l l' (E & _) _ IH]; cbn; congruence. Qed.
Lemma Forall2_len {A B} (P : A -> B -> Prop) l l' : Forall2 P l l' -> length l = length l'.
Proof. induction 1; cbn; congruence. Qed.
Lemma app_same_end {A} (a b u v : list A) : length u = length v -> a ++ u = b ++ v -> u = v.
Proof.
  intros HL E. apply (f_equal (@rev A)) in E. rewrite !rev_app_distr in E. apply (f_equal (firstn (length u))) in E.
  rewrite <- (rev_length u) in E at 1. rewrite HL, <- (rev_length v) in E. rewrite !firstn_app, !Nat.sub_diag, !firstn_all in E.
  cbn [firstn] in E. rewrite !app_nil_r in E. rewrite <- (rev_involutive u), <- (rev_involutive v), E. reflexivity.
Qed.

(** Two requesters authenticated by the last answer of one responder, which was
    sent no trailing bytes either, sent the same messages: the same nonce in CHALLENGE,
    too.  (Or one of their logs collides with the responder's.) *)
Theorem C94_one_session_partial root1 root2 exq1 exq2 Q1 Q2 al1 al2 slots ex R id :
  @req_setting cq kq -> @setting cr kr slots -> same_hash kq kr -> @feature_rand cq = @feature_rand cr ->
  @session cr kr slots ex R -> rsp_state R = Some (RspChallenge id) -> (exists ex' y, ex = ex' ++ [y] /\ code (fst y) = 0x83%N) ->
  Forall (@exact_request cr) (map fst ex) ->
  authenticated_by root1 exq1 Q1 al1 R id -> authenticated_by root2 exq2 Q2 al2 R id ->
  @collision kr (al_base_hash al1) (t_get (req_transcript Q1)) (t_get (rsp_transcript R)) \/
  @collision kr (al_base_hash al2) (t_get (req_transcript Q2)) (t_get (rsp_transcript R)) \/
  map fst exq1 = map fst exq2.
Proof.
  intros HQ HR SH HFR SR ER LAST XR (S1 & (p1 & r1 & a1 & E1 & C1) & L1 & (ss1 & G1 & X1) & D1) (S2 & (p2 & r2 & a2 & E2 & C2) & L2 & (ss2 & G2 & X2) & D2).
  destruct (C40_agreement_partial cq kq cr kr root1 exq1 Q1 p1 r1 a1 slots ex R id al1 ss1 HQ HR SH HFR S1 E1 C1 L1 G1 SR ER LAST X1 XR D1)
    as [K|(_ & _ & _ & _ & e1 & rec1 & M1 & F1)]; [now left|right].
  destruct (C40_agreement_partial cq kq cr kr root2 exq2 Q2 p2 r2 a2 slots ex R id al2 ss2 HQ HR SH HFR S2 E2 C2 L2 G2 SR ER LAST X2 XR D2)
    as [K|(_ & _ & _ & _ & e2 & rec2 & M2 & F2)]; [now left|right].
  assert (N1 : length exq1 = 6).
  { destruct (@req_shape cq kq root1 exq1 Q1 p1 r1 a1 HQ S1 E1 C1)
      as (v & own & ct & fl & al0 & slot & portion & na & fs & body & remainder & nonce & m1 & m2 & m3 & m4 & m5 & ss0 & -> & _). reflexivity. }
  assert (N2 : length exq2 = 6).
  { destruct (@req_shape cq kq root2 exq2 Q2 p2 r2 a2 HQ S2 E2 C2)
      as (v & own & ct & fl & al0 & slot & portion & na & fs & body & remainder & nonce & m1 & m2 & m3 & m4 & m5 & ss0 & -> & _). reflexivity. }
  rewrite (same_requests _ _ _ F1), (same_requests _ _ _ F2). f_equal.
  apply Forall2_len in F1, F2. rewrite M1 in M2. apply app_same_end in M2; [exact M2|]. congruence.
Qed.
End Injective.

(** * With trailing bytes *)
(** The default configuration, but opaque data of a CHALLENGE_AUTH may be longer
    (build.rs accepts any max_element_data_size). *)
#[local] Instance big_cfg : Config :=
  Build_Config 5 1024 4 4096 64 64 256 2 8 1024 (@CAPABILITIES sample_cfg) (@SIGNING_ALGOS sample_cfg) true true.
#[local] Existing Instance sample_crypto.
Lemma big_serve_session reqs : forall k ex R l R', (k + N.of_nat (length reqs) < 256)%N -> Forall bytes reqs -> session sample_slots ex R ->
  serve k reqs R = Some (l, R') -> session sample_slots (ex ++ l) R'.
Proof.
  induction reqs as [|req reqs IH]; intros k ex R l R' L F S H; cbn [serve] in H.
  - injection H as <- <-. now rewrite app_nil_r.
  - inversion F as [|? ? F1 F2]; subst. destruct (responder_handle_msg R (sample_rnd k) req big_buf) as [[[out [[]|e|p]|p] b] R1] eqn:EH; try discriminate.
    destruct (serve (k + 1) reqs R1) as [[l2 R2]|] eqn:ES; [|discriminate]. injection H as <- <-.
    change ((req, out) :: l2) with ([(req, out)] ++ l2). rewrite app_assoc. eapply IH; [| |eapply session_step; eauto|exact ES]; auto.
    + cbn [length] in L. lia.
    + apply sample_rnd_ok. lia.
Qed.
(** Two requesters have sent CHALLENGE, with nonces 7..7 and 8..8.  The attacker had
    appended to the CERTIFICATE for the second the CHALLENGE of the first and the head
    of a CHALLENGE_AUTH whose opaque data are to hold the rest.  It sends the
    responder the first CHALLENGE, with that head and the second CHALLENGE behind it. *)
Definition chal_1 : list N := Eval vm_compute in [0x11; 0x83; 0; 0]%N ++ repeat 7%N 32.
Definition chal_2 : list N := Eval vm_compute in [0x11; 0x83; 0; 0]%N ++ repeat 8%N 32.
Definition fake_head : list N := Eval vm_compute in
  [0x11; 0x03; 0; 9]%N ++ toy_hash 1 (chain_bytes (sample_chain 5)) ++ repeat 9%N 32 ++ zeros 32 ++ u16le 152 ++
  [1; 0; 0; 0]%N ++ [1; 2; 0; 0]%N ++ u16le 142.
Definition shared_requests : list (list N) := Eval vm_compute in firstn 5 sample_requests ++ [chal_1 ++ fake_head ++ chal_2].
Definition shared_ex : list (list N * list N) := Eval vm_compute in
  match serve 1 shared_requests (responder_new sample_slots) with Some (l, _) => l | None => [] end.
Definition shared_auth : list N := Eval vm_compute in nth 5 (map snd shared_ex) [].
Definition responses_1 : list (list N) := Eval vm_compute in firstn 5 sample_responses ++ [fake_head ++ chal_2 ++ shared_auth].
Definition responses_2 : list (list N) := Eval vm_compute in
  firstn 4 sample_responses ++ [sample_response 4 ++ chal_1 ++ fake_head; shared_auth].
Definition big_q0 : Requester := requester_new [1; 2; 3]%N.
Definition events_1 : list event := Eval vm_compute in match drive 2 responses_1 big_q0 with Some (ev, _, _) => ev | None => [] end.
Definition events_2 : list event := Eval vm_compute in match drive 3 responses_2 big_q0 with Some (ev, _, _) => ev | None => [] end.
Definition victim_1 : Requester := match drive 2 responses_1 big_q0 with Some (_, _, Q) => Q | None => big_q0 end.
Definition victim_2 : Requester := match drive 3 responses_2 big_q0 with Some (_, _, Q) => Q | None => big_q0 end.
Definition shared_R : Responder := match serve 1 shared_requests (responder_new sample_slots) with Some (_, R) => R | None => responder_new sample_slots end.
Lemma victim_1_session : req_session [1; 2; 3]%N events_1 victim_1.
Proof.
  assert (E : drive 2 responses_1 big_q0 = Some (events_1, true, victim_1)) by (vm_compute; reflexivity).
  apply (@drive_session big_cfg sample_crypto [1; 2; 3]%N _ _ _ [] _ _ _ (@req_session_new big_cfg sample_crypto _)) in E; [exact E| |reflexivity].
  apply Forall_forall, forallb_forall. vm_compute. reflexivity.
Qed.
Lemma victim_2_session : req_session [1; 2; 3]%N events_2 victim_2.
Proof.
  assert (E : drive 3 responses_2 big_q0 = Some (events_2, true, victim_2)) by (vm_compute; reflexivity).
  apply (@drive_session big_cfg sample_crypto [1; 2; 3]%N _ _ _ [] _ _ _ (@req_session_new big_cfg sample_crypto _)) in E; [exact E| |reflexivity].
  apply Forall_forall, forallb_forall. vm_compute. reflexivity.
Qed.
Lemma shared_session : session sample_slots shared_ex shared_R.
Proof.
  assert (E : serve 1 shared_requests (responder_new sample_slots) = Some (shared_ex, shared_R)) by (vm_compute; reflexivity).
  apply (big_serve_session shared_requests 1 [] _ _ _) in E; [exact E|reflexivity| |constructor]. apply bytes_all. vm_compute. reflexivity.
Qed.
Lemma big_setting : setting sample_slots.
Proof. exact sample_setting. Qed.
Lemma big_req_setting : req_setting.
Proof. exact sample_req_setting. Qed.
(** The responder answered one CHALLENGE, with one signature, over one transcript:
    that of both requesters, who each drew another nonce and both authenticated. *)
Theorem C94_one_session_refuted : exists root ev1 Q1 auth1 ev2 Q2 auth2 slots ex R unsigned signature more1,
  req_setting /\ setting slots /\
  req_session root (ev1 ++ [Sent ([0x11; 0x83; 0; 0]%N ++ repeat 7%N 32); Got auth1]) Q1 /\ req_state Q1 = Some ReqNewSession /\ code auth1 = 0x03%N /\
  req_session root (ev2 ++ [Sent ([0x11; 0x83; 0; 0]%N ++ repeat 8%N 32); Got auth2]) Q2 /\ req_state Q2 = Some ReqNewSession /\ code auth2 = 0x03%N /\
  session slots ex R /\ length (filter (fun x => code (fst x) =? 0x83)%N ex) = 1 /\ In (unsigned ++ signature) (map snd ex) /\
  auth1 = more1 ++ unsigned ++ signature /\ auth2 = unsigned ++ signature /\ length signature = 64 /\
  t_get (req_transcript Q1) = t_get (rsp_transcript R) /\ t_get (req_transcript Q2) = t_get (rsp_transcript R).
Proof.
  exists [1; 2; 3]%N, (firstn 10 events_1), victim_1, (nth 5 responses_1 []), (firstn 10 events_2), victim_2, shared_auth, sample_slots, shared_ex, shared_R,
    (firstn 106 shared_auth), (skipn 106 shared_auth), (fake_head ++ chal_2).
  split; [exact big_req_setting|]. split; [exact big_setting|].
  split; [exact victim_1_session|]. split; [vm_compute; reflexivity|]. split; [reflexivity|].
  split; [exact victim_2_session|]. split; [vm_compute; reflexivity|]. split; [reflexivity|].
  split; [exact shared_session|]. split; [vm_compute; reflexivity|]. split; [vm_compute; auto 8|].
  split; [vm_compute; reflexivity|]. split; [vm_compute; reflexivity|]. split; [vm_compute; reflexivity|].
  split; vm_compute; reflexivity.
Qed.

(** * The hypotheses of C94_one_session_partial are met (by the run of C40_example, as both) *)
Example C94_example : exists id,
  @req_setting sample_cfg sample_crypto /\ @setting sample_cfg sample_crypto sample_slots /\
  @session sample_cfg sample_crypto sample_slots sample_exchanges (served_R sample_requests) /\
  rsp_state (served_R sample_requests) = Some (RspChallenge id) /\
  Forall (@exact_request sample_cfg) (map fst sample_exchanges) /\
  authenticated_by sample_cfg sample_crypto sample_crypto [1; 2; 3]%N sample_exchanges (driven_R 6) agreed_algorithms (served_R sample_requests) id.
Proof.
  destruct C40_example as (A1 & A2 & A3 & A4 & A5 & A6 & A7 & A8 & A9 & A10 & A11 & A12).
  exists (mkRspId 12 sample_own_q 12 sample_own_r agreed_algorithms).
  split; [exact A1|]. split; [exact A2|]. split; [exact A6|]. split; [exact A7|]. split; [exact A11|].
  split; [exact A3|]. split.
  { exists (firstn 5 sample_exchanges), (fst (nth 5 sample_exchanges ([], []))), (snd (nth 5 sample_exchanges ([], []))). split; vm_compute; reflexivity. }
  split; [exact A4|]. split; [exists 64; split; [exact A5|exact A10]|]. rewrite A12. reflexivity.
Qed.
Print Assumptions C94_one_session_partial.
Print Assumptions C94_one_session_refuted.
