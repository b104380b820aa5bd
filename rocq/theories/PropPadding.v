(** C69: bytes added behind a message in transit. *)
From Verif Require Import Base BaseLemmas Config Encoding MsgCommon MsgVersion MsgCapabilities MsgAlgorithms MsgDigest
     MsgCertificates MsgChallenge MsgError Transcript Crypto Responder Requester SpecWire SpecMsgs SpecResponder SpecRequester SpecAgree SpecAuth
     GramAlg FlagLemmas PropTools RspStep PropResponder PropRspState ReqStep ReqMsg PropRequester PropReqState PropAgree PropMitm PropAlg PropAuth PropTables Sample SampleRun SampleReq.

#[local] Opaque chain_bytes.

(** One exchange over a transport that appends bytes: the requester sent
    [p_req], the responder got [p_req ++ p_more]; it answered [p_rsp] and the
    requester got [p_rsp ++ p_extra]. *)
Record padded := mkPadded { p_req : list N; p_more : list N; p_rsp : list N; p_extra : list N }.
Definition requester_saw (l : list padded) : list (list N * list N) := map (fun x => (p_req x, p_rsp x ++ p_extra x)) l.
Definition responder_saw (l : list padded) : list (list N * list N) := map (fun x => (p_req x ++ p_more x, p_rsp x)) l.

Lemma padded_code (q p : list N) : 2 <= length q -> code (q ++ p) = code q.
Proof. destruct q as [|a [|b q]]; cbn [length]; try lia. reflexivity. Qed.

Lemma last_signed {cfg : Config} {cr : Crypto} slots ex req out R s : setting slots -> session slots (ex ++ [(req, out)]) R ->
  code req = 0x83%N -> rsp_state R = Some (RspChallenge s) ->
  exists ss, sig_len (al_base_asym (ri_algorithms s)) = Some ss /\ ss <= length out /\ sha2 (al_base_hash (ri_algorithms s)).
Proof.
  intros HS H EC ES. apply session_inv in H as (R0 & rnd & rsp & rsp' & H & HB & RK & HH). cbn [fst snd] in *.
  destruct (step_sound slots R0 rnd req rsp out rsp' R HS (session_reached _ _ _ H) HB RK HH) as (st & st' & log' & E1 & E2 & E3 & SV & _).
  rewrite ES in E2. injection E2 as <-. remember (t_get (rsp_transcript R0)) as log0.
  inversion SV; subst; try (match goal with SW : starts_with _ req |- _ => destruct SW as (? & ->); discriminate EC end).
  eexists. split; [eassumption|]. split; [rewrite app_length; lia|]. match goal with HU : hash_usable _ |- _ => apply HU end.
Qed.
(** The algorithms of a responder are those in its ALGORITHMS response. *)
Lemma session_algorithms {cfg : Config} {cr : Crypto} slots ex R id : setting slots -> session slots ex R -> rsp_state R = Some (RspChallenge id) ->
  exists q fs len, In (q, [0x11; 0x63]%N ++ algorithms_layout (N.of_nat (length fs)) len (al_measurement_spec (ri_algorithms id))
       (al_measurement_hash (ri_algorithms id)) (al_base_asym (ri_algorithms id)) (al_base_hash (ri_algorithms id)) (no_ext fs)) ex /\
    code q = 0xE3%N /\ length fs < 256 /\ Forall alg_struct_ok fs /\
    (al_base_hash (ri_algorithms id) < 4294967296)%N /\ (al_measurement_hash (ri_algorithms id) < 4294967296)%N /\ (al_base_asym (ri_algorithms id) < 4294967296)%N.
Proof.
  intros HS H ER.
  destruct (session_since slots ex R HS H) as [[_ E]|(earlier & recent & st & EE & E & SI)]; [congruence|].
  rewrite ER in E. injection E as <-.
  destruct (since_challenge slots _ _ _ SI) as (ex0 & q5 & slot5 & off & len & cs & log0 & ss1 & SL1 & ERC & SI0 & _).
  destruct (since_id slots _ _ _ SI0) as (exA & q3 & body3 & na3 & al3 & es3 & fs3 & dss & s0 & log1 & E0 & _ & _ & EID & (r & EQ3) & NF3 & AC3 & _).
  assert (AL3 : ri_algorithms id = al3) by (subst id; reflexivity). rewrite AL3.
  exists q3, fs3, (36 + 4 * N.of_nat (length fs3))%N.
  destruct AC3 as (NE3 & AE3 & NR & AR & F2 & EMS & SHB & EMH & SAB).
  destruct NF3 as (len3 & ea & eh & t3 & _ & _ & _ & FT3 & _ & OA3 & OH3 & NT3 & AT3 & _).
  assert (BH32 : forall i, In i hash_bits -> (i < 32)%N) by (apply bound_check; reflexivity).
  assert (BA32 : forall i, In i asym_bits -> (i < 32)%N) by (apply bound_check; reflexivity).
  split; [|split; [rewrite EQ3; reflexivity|split; [destruct AR; lia|split]]].
  - rewrite EE, ERC, E0. apply in_or_app. right. apply in_or_app. left. apply in_or_app. right. left. reflexivity.
  - eapply chosen_structs; [|exact F2].
    assert (es3 = map fst t3) as -> by (eapply alg_array_unique; eauto; rewrite map_length; lia).
    apply Forall_forall. intros x Hx. apply in_map_iff in Hx as (y & <- & Hy). rewrite Forall_forall in FT3. now apply FT3.
  - rewrite EMH. repeat split; try exact (chosen_bound _ _ _ BH32 OH3 SHB). exact (chosen_bound _ _ _ BA32 OA3 SAB).
Qed.

Section Props.
Variables (cq : Config) (kq : Crypto) (cr : Config) (kr : Crypto).

(** When a transport only appends bytes, to requests, to responses or to both, and
    the signature the requester accepted is over the digest the responder signed,
    then as many bytes were appended to requests as to responses, or the hash is
    broken. *)
Theorem C69_padding_balanced root l last Q slots R id al :
  @req_setting cq kq -> @setting cr kr slots -> same_hash kq kr ->
  @req_session cq kq root (as_events (requester_saw (l ++ [last]))) Q -> code (p_rsp last ++ p_extra last) = 0x03%N ->
  selected (as_events (requester_saw (l ++ [last]))) al ->
  @session cr kr slots (responder_saw (l ++ [last])) R -> rsp_state R = Some (RspChallenge id) ->
  @sha kq (al_base_hash al) (t_get (req_transcript Q)) = @sha kr (al_base_hash (ri_algorithms id)) (t_get (rsp_transcript R)) ->
  @collision kr (al_base_hash al) (t_get (req_transcript Q)) (t_get (rsp_transcript R)) \/
  length (concat (map p_more (l ++ [last]))) = length (concat (map p_extra (l ++ [last]))).
Proof.
  intros HQ HR SH SQ CA SE SR ER ED.
  assert (EX : requester_saw (l ++ [last]) = requester_saw l ++ [(p_req last, p_rsp last ++ p_extra last)]) by (unfold requester_saw; now rewrite map_app).
  destruct (@req_shape cq kq root _ Q _ _ _ HQ SQ EX CA)
    as (v & own & ct & fl & al0 & slot & portion & na & fs & body & remainder & nonce & m1 & m2 & m3 & m4 & m5 & ss & EL
        & TA & SW1 & FN & SW2 & OB2 & OO & SW3 & FM3 & NR3 & AR3 & HB3 & SW4 & SW5 & LP & NOK & SL & AUTH & LQ).
  assert (al0 = al) as ->.
  { eapply (@selected_unique cq kq); eauto. destruct (told_selected _ _ _ _ _ _ TA) as (m & b & I & Y). exists m, b. split; [|exact Y].
    rewrite <- (firstn_skipn 3 (requester_saw (l ++ [last]))), as_events_app, received_app. apply in_or_app. left. exact I. }
  assert (ERS : responder_saw (l ++ [last]) = responder_saw l ++ [(p_req last ++ p_more last, p_rsp last)]) by (unfold responder_saw; now rewrite map_app).
  assert (CL : code (p_req last ++ p_more last) = 0x83%N).
  { rewrite EX in EL. change [(get_version_bytes, m1); (capabilities_msg own, m2); (offer_msg na, m3); (get_digests_msg, m4); (@get_certificate_msg cq, m5);
           (challenge_msg slot nonce, p_rsp last ++ p_extra last)]
      with ([(get_version_bytes, m1); (capabilities_msg own, m2); (offer_msg na, m3); (get_digests_msg, m4); (@get_certificate_msg cq, m5)] ++
           [(challenge_msg slot nonce, p_rsp last ++ p_extra last)]) in EL.
    apply app_inj_tail in EL as [_ EL]. injection EL as ->. rewrite padded_code; [reflexivity|]. unfold challenge_msg. rewrite app_length. cbn [length]. lia. }
  pose proof SR as SR'. rewrite ERS in SR'.
  destruct (@last_signed cr kr _ _ _ _ _ _ HR SR' CL ER) as (ss' & SL' & LS' & SH').
  assert (SHA : sha2 (al_base_hash al)) by exact (sha2_selected _ _ _ _ _ _ TA).
  assert (EH : al_base_hash al = al_base_hash (ri_algorithms id)).
  { apply hash_len_sha2; auto. destruct HQ as (_ & _ & HCQ). destruct HR as (_ & _ & HCR).
    rewrite <- (proj1 (HCQ _ (t_get (req_transcript Q)) SHA)), <- (proj1 (HCR _ (t_get (rsp_transcript R)) SH')). now rewrite ED. }
  rewrite (SH _ _), <- EH in ED.
  destruct (list_eq_dec N.eq_dec (t_get (req_transcript Q)) (t_get (rsp_transcript R))) as [ET|NE].
  2: { left. split; auto. }
  right. pose proof (@C27_transcript_is_log cr kr _ _ _ _ HR SR ER) as LR.
  cbn [negotiated_sig_len] in LR. rewrite SL' in LR.
  destruct (@session_algorithms cr kr slots _ R id HR SR ER) as (q3 & fs3 & len3 & I3 & CQ3 & LF3 & FS3 & B1 & B2 & B3).
  (* the six exchanges *)
  remember (l ++ [last]) as L eqn:EQL. clear EX ERS SR SR' SQ SE TA.
  destruct L as [|x1 [|x2 [|x3 [|x4 [|x5 [|x6 [|? ?]]]]]]]; try discriminate EL.
  unfold requester_saw in EL. cbn [map] in EL. injection EL as Q1 M1 Q2 M2 Q3 M3 Q4 M4 Q5 M5 Q6 M6.
  assert (last = x6) as ->.
  { change [x1; x2; x3; x4; x5; x6] with ([x1; x2; x3; x4; x5] ++ [x6]) in EQL. apply app_inj_tail in EQL as [_ ->]. reflexivity. }
  assert (K1 : code (p_req x1 ++ p_more x1) = 0x84%N) by (rewrite Q1; reflexivity).
  assert (K2 : code (p_req x2 ++ p_more x2) = 0xE1%N) by (rewrite Q2; reflexivity).
  assert (K3 : code (p_req x3 ++ p_more x3) = 0xE3%N) by (rewrite Q3; reflexivity).
  assert (K4 : code (p_req x4 ++ p_more x4) = 0x81%N) by (rewrite Q4; reflexivity).
  assert (K5 : code (p_req x5 ++ p_more x5) = 0x82%N) by (rewrite Q5; reflexivity).
  (* one signature size *)
  assert (EA : al_base_asym al = al_base_asym (ri_algorithms id)).
  { assert (E3 : p_rsp x3 = [0x11; 0x63]%N ++ algorithms_layout (N.of_nat (length fs3)) len3 (al_measurement_spec (ri_algorithms id))
       (al_measurement_hash (ri_algorithms id)) (al_base_asym (ri_algorithms id)) (al_base_hash (ri_algorithms id)) (no_ext fs3)).
    { unfold responder_saw in I3. cbn [map In] in I3.
      destruct I3 as [E|[E|[E|[E|[E|[E|[]]]]]]]; injection E as E E'; try (rewrite <- E in CQ3; congruence). exact E'. }
    destruct SW3 as (r3 & SW3). rewrite <- M3, E3, <- !app_assoc in SW3. apply app_inv_head in SW3. symmetry in SW3.
    apply (cancel_algorithms _ _ _ _ _ _ _ _ _ _ FM3 LF3 B2 B3 B1 FS3) in SW3 as (_ & _ & _ & _ & _ & _ & -> & _). reflexivity. }
  rewrite EA, SL' in SL. injection SL as <-.
  rewrite LQ, LR in ET. apply (f_equal (@length N)) in ET.
  unfold responder_saw, log_of in ET. cbn [map fold_left] in ET. unfold log_one in ET.
  rewrite K1, K2, K3, K4, K5, CL in ET. cbn [N.eqb Pos.eqb] in ET.
  unfold requester_saw, flat in ET. cbn [map firstn concat fst snd] in ET. rewrite ?app_length in ET. rewrite !firstn_length in ET. cbn [length] in ET.
  rewrite !app_length in ET. cbn [map concat]. rewrite !app_length. cbn [length].
  rewrite <- Q6 in ET. lia.
Qed.
End Props.

Section Corollaries.
Variables (cq : Config) (kq : Crypto) (cr : Config) (kr : Crypto).
Lemma concat_nil {A} (l : list (list A)) : length (concat l) = 0 -> Forall (fun x => x = []) l.
Proof. induction l as [|x l IH]; cbn [concat]; intros H; constructor; rewrite app_length in H; [destruct x; [reflexivity|discriminate]|apply IH; lia]. Qed.
Lemma nil_concat {A} (l : list (list A)) : Forall (fun x => x = []) l -> length (concat l) = 0.
Proof. induction 1 as [|x l -> F IH]; auto. Qed.

(** Appending to requests only, or to responses only, is always detected. *)
Theorem C69_padding_detected root l last Q slots R id al :
  @req_setting cq kq -> @setting cr kr slots -> same_hash kq kr ->
  @req_session cq kq root (as_events (requester_saw (l ++ [last]))) Q -> code (p_rsp last ++ p_extra last) = 0x03%N ->
  selected (as_events (requester_saw (l ++ [last]))) al ->
  @session cr kr slots (responder_saw (l ++ [last])) R -> rsp_state R = Some (RspChallenge id) ->
  @sha kq (al_base_hash al) (t_get (req_transcript Q)) = @sha kr (al_base_hash (ri_algorithms id)) (t_get (rsp_transcript R)) ->
  @collision kr (al_base_hash al) (t_get (req_transcript Q)) (t_get (rsp_transcript R)) \/
  ((Forall (fun x => p_more x = []) (l ++ [last]) <-> Forall (fun x => p_extra x = []) (l ++ [last]))).
Proof.
  intros HQ HR SH SQ CA SE SR ER ED.
  destruct (C69_padding_balanced cq kq cr kr root l last Q slots R id al HQ HR SH SQ CA SE SR ER ED) as [C|E]; [now left|right].
  split; intros F.
  - rewrite (nil_concat (map p_more (l ++ [last]))) in E by (apply Forall_map; exact F). symmetry in E. apply concat_nil in E. now apply Forall_map in E.
  - rewrite (nil_concat (map p_extra (l ++ [last]))) in E by (apply Forall_map; exact F). apply concat_nil in E. now apply Forall_map in E.
Qed.

(** The responder loop of README.adoc passes the whole receive buffer, of some
    fixed size, to handle_msg.  With it no authentication can succeed, unless
    the hash is broken, whatever the size. *)
Theorem C69_readme_loop root l last Q slots R id al size :
  @req_setting cq kq -> @setting cr kr slots -> same_hash kq kr ->
  @req_session cq kq root (as_events (requester_saw (l ++ [last]))) Q -> code (p_rsp last ++ p_extra last) = 0x03%N ->
  selected (as_events (requester_saw (l ++ [last]))) al ->
  @session cr kr slots (responder_saw (l ++ [last])) R -> rsp_state R = Some (RspChallenge id) ->
  Forall (fun x => length (p_req x ++ p_more x) = size) (l ++ [last]) -> Forall (fun x => p_extra x = []) (l ++ [last]) ->
  @sha kq (al_base_hash al) (t_get (req_transcript Q)) = @sha kr (al_base_hash (ri_algorithms id)) (t_get (rsp_transcript R)) ->
  @collision kr (al_base_hash al) (t_get (req_transcript Q)) (t_get (rsp_transcript R)).
Proof.
  intros HQ HR SH SQ CA SE SR ER FS FE ED.
  destruct (C69_padding_detected root l last Q slots R id al HQ HR SH SQ CA SE SR ER ED) as [C|E]; [exact C|exfalso].
  apply E in FE.
  assert (EX : requester_saw (l ++ [last]) = requester_saw l ++ [(p_req last, p_rsp last ++ p_extra last)]) by (unfold requester_saw; now rewrite map_app).
  destruct (@req_shape cq kq root _ Q _ _ _ HQ SQ EX CA)
    as (v & own & ct & fl & al0 & slot & portion & na & fs & body & remainder & nonce & m1 & m2 & m3 & m4 & m5 & ss & EL & _).
  remember (l ++ [last]) as L. destruct L as [|x1 [|x2 L]]; try discriminate EL.
  unfold requester_saw in EL. cbn [map] in EL. injection EL as Q1 M1 Q2 M2 _.
  apply Forall_cons_iff in FS as [S1 FS]. apply Forall_cons_iff in FS as [S2 _].
  apply Forall_cons_iff in FE as [N1 FE]. apply Forall_cons_iff in FE as [N2 _].
  rewrite N1, app_nil_r, Q1 in S1. rewrite N2, app_nil_r, Q2 in S2. rewrite <- S2 in S1. discriminate S1.
Qed.
End Corollaries.

#[local] Existing Instance sample_cfg.
#[local] Existing Instance sample_crypto.
(** The README loop in the sample world: a receive buffer of [length buf] bytes,
    which holds the request and, behind it, what it held before.  All results of
    handle_msg on both sides, until the first error. *)
Fixpoint readme_loop (n : nat) (k : N) (buf : list N) (q : Requester) (r : Responder) : list (Reply * res RequesterError bool) :=
  match n with
  | O => []
  | S n => match requester_next_request q (repeat (k + 1)%N 32) big_buf with
           | (Ok req, _, q1) =>
             let buf := req ++ skipn (length req) buf in
             let '(reply, _, r1) := responder_handle_msg r (sample_rnd k) buf big_buf in
             match reply with
             | Replied out (Ok tt) =>
               let '(res, q2) := requester_handle_msg q1 out in
               (reply, res) :: match res with Ok _ => readme_loop n (k + 1) buf q2 r1 | _ => [] end
             | _ => [(reply, Ok false)]
             end
           | _ => []
           end
  end.
Definition outcome (x : Reply * res RequesterError bool) : bool * option RequesterError :=
  (match fst x with Replied _ (Ok tt) => true | _ => false end, match snd x with Err e => Some e | _ => None end).
(** The responder answers all six requests; the requester refuses the
    authentication. *)
Example C69_readme_example :
  map outcome (readme_loop 6 1 (repeat 0%N 64) sample_q0 sample_r0) =
  repeat (true, None) 5 ++ [(true, Some (ReqChallengeAuth InvalidSignature))].
Proof. vm_compute. reflexivity. Qed.

(** Bytes appended in both directions can go unnoticed: GET_VERSION is delivered
    with a VERSION message behind it, and the answer is delivered twice.  The
    authentication is accepted; as the theorem says, ten bytes were appended on
    either side. *)
Definition doubled_requests : list (list N) := Eval vm_compute in
  match sample_requests with q :: rest => (q ++ version_reply) :: rest | [] => [] end.
Definition doubled_ex : list (list N * list N) := Eval vm_compute in served_ex doubled_requests.
Definition doubled_responses : list (list N) := Eval vm_compute in
  match map snd doubled_ex with a :: rest => (a ++ version_reply) :: rest | [] => [] end.
Definition doubled : list padded := Eval vm_compute in
  match sample_requests, map snd doubled_ex with
  | q :: qs, a :: rs => mkPadded q version_reply a version_reply :: map (fun x => mkPadded (fst x) [] (snd x) []) (combine qs rs)
  | _, _ => []
  end.
Definition doubled_Q : Requester := match drive 2 doubled_responses sample_q0 with Some (_, _, Q) => Q | None => sample_q0 end.
Lemma doubled_drive : drive 2 doubled_responses sample_q0 = Some (as_events (requester_saw doubled), true, doubled_Q).
Proof. vm_compute. reflexivity. Qed.
Example C69_example : exists l last id al,
  doubled = l ++ [last] /\ length (concat (map p_more doubled)) = 10 /\ length (concat (map p_extra doubled)) = 10 /\
  req_setting /\ setting sample_slots /\ same_hash sample_crypto sample_crypto /\
  req_session [1; 2; 3]%N (as_events (requester_saw doubled)) doubled_Q /\ req_state doubled_Q = Some ReqNewSession /\
  code (p_rsp last ++ p_extra last) = 0x03%N /\ selected (as_events (requester_saw doubled)) al /\
  session sample_slots (responder_saw doubled) (served_R doubled_requests) /\ rsp_state (served_R doubled_requests) = Some (RspChallenge id) /\
  sha (al_base_hash al) (t_get (req_transcript doubled_Q)) = sha (al_base_hash (ri_algorithms id)) (t_get (rsp_transcript (served_R doubled_requests))).
Proof.
  exists (firstn 5 doubled), (nth 5 doubled (mkPadded [] [] [] [])), (mkRspId 12 sample_own_q 12 sample_own_r agreed_algorithms), agreed_algorithms.
  split; [reflexivity|]. split; [reflexivity|]. split; [reflexivity|]. split; [exact sample_req_setting|]. split; [exact sample_setting|].
  split; [intros h d; reflexivity|].
  assert (SQ : req_session [1; 2; 3]%N (as_events (requester_saw doubled)) doubled_Q).
  { pose proof doubled_drive as X. apply (drive_session [1; 2; 3]%N _ _ _ [] _ _ _ (req_session_new _)) in X; [exact X| |].
    - repeat (constructor; [vm_compute; reflexivity|]). constructor.
    - vm_compute. reflexivity. }
  split; [exact SQ|]. split; [vm_compute; reflexivity|]. split; [reflexivity|]. split.
  { assert (P : algorithms_parse_body (skipn 2 (sample_response 2)) = Ok agreed_algorithms) by (vm_compute; reflexivity).
    apply C10_algorithms_parse in P as (body & r & EB & FM); [|apply bytes_check; reflexivity].
    exists (sample_response 2), body. split; [vm_compute; auto|]. split; [apply bytes_check; reflexivity|]. split; [|exact FM].
    exists r. rewrite <- app_assoc, <- EB. reflexivity. }
  split.
  { replace (responder_saw doubled) with (served_ex doubled_requests) by (vm_compute; reflexivity).
    apply served_session; [reflexivity|apply bytes_all; vm_compute; reflexivity|].
    intros H. apply (f_equal (fun o => match o with Some _ => true | None => false end)) in H. vm_compute in H. discriminate. }
  split; vm_compute; reflexivity.
Qed.
Print Assumptions C69_padding_balanced.
Print Assumptions C69_padding_detected.
Print Assumptions C69_readme_loop.
