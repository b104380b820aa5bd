(** C64: end-to-end authentication. *)
From Verif Require Import Base BaseLemmas Config Encoding MsgCommon MsgVersion MsgCapabilities MsgAlgorithms MsgDigest
     MsgCertificates MsgChallenge MsgError Transcript Crypto Responder Requester SpecWire SpecMsgs SpecResponder SpecRequester SpecAgree SpecAuth
     PropTools RspStep PropResponder PropRspState ReqStep ReqMsg PropRequester PropReqState PropAgree PropMitm Sample SampleRun SampleReq.

#[local] Opaque chain_bytes.
Lemma sha2_selected {cfg : Config} {cr : Crypto} v own ct fl al ev : told_algorithms v own ct fl al ev -> sha2 (al_base_hash al).
Proof.
  intros TA. destruct (told_selection _ _ _ _ _ _ TA) as (na' & fs' & OO' & _ & _ & _ & _ & _ & (i & TB & ->) & _).
  destruct OO' as (_ & _ & _ & EB' & _). rewrite EB' in TB.
  assert (TB7 : N.testbit 7 i = true) by (destruct provider; [exact TB|destruct i as [|[]]; [reflexivity|discriminate TB..]]).
  destruct i as [|[[|[]|]|[|[]|]|]]; try discriminate TB7; [left|right; right|right; left]; reflexivity.
Qed.
(** A responder that signed used a SHA-2 hash. *)
Lemma signed_sha2 {cfg : Config} {cr : Crypto} slots ex req out R s : setting slots -> session slots (ex ++ [(req, out)]) R ->
  code req = 0x83%N -> rsp_state R = Some (RspChallenge s) -> sha2 (al_base_hash (ri_algorithms s)).
Proof.
  intros HS H EC ES. apply session_inv in H as (R0 & rnd & rsp & rsp' & H & HB & RK & HH). cbn [fst snd] in *.
  destruct (step_sound slots R0 rnd req rsp out rsp' R HS (session_reached _ _ _ H) HB RK HH) as (st & st' & log' & E1 & E2 & E3 & SV & _).
  rewrite ES in E2. injection E2 as <-. remember (t_get (rsp_transcript R0)) as log0.
  inversion SV; subst; try (match goal with SW : starts_with _ req |- _ => destruct SW as (? & ->); discriminate EC end).
  match goal with HU : hash_usable _ |- _ => apply HU end.
Qed.

Section PropAuth.
Variables (cq : Config) (kq : Crypto) (cr : Config) (kr : Crypto).

(** A requester that completes by CHALLENGE_AUTH was answered by a responder
    holding the certified key: its signature is over exactly the messages this
    requester saw since its GET_VERSION, among them the CHALLENGE with the nonce
    just drawn (or the hash is broken). *)
Theorem C64_authentication P root ev Q fresh buf out buf' Q1 rsp Q2 :
  @req_setting cq kq -> same_hash kq kr -> keys_held_by_responders kq cr kr P root trust_time ->
  @req_session cq kq root ev Q -> fresh_ok fresh -> @requester_next_request cq kq Q fresh buf = (Ok out, buf', Q1) ->
  bytes rsp -> @requester_handle_msg cq kq Q1 rsp = (Ok true, Q2) -> code rsp = 0x03%N ->
  exists leaf h slot ss data,
    let log := events_log ss ev ++ out ++ firstn (length rsp - ss) rsp in
    @responder_signed cr kr P leaf h data /\ certified kq root trust_time leaf /\
    out = [0x11; 0x83; slot; 0]%N ++ @wire_nonce cq fresh /\ occurs_in (@wire_nonce cq fresh) log /\
    (data = log \/ @collision kr h log data).
Proof.
  intros HQ SH HK H FR E1 HB E2 C3.
  destruct (@C38_authentication cq kq root ev Q fresh buf out buf' Q1 rsp Q2 HQ H FR E1 HB E2 C3)
    as (v & own & ct & fl & al & d & slot & portion & ev0 & nonces & ss & T & -> & EO & SL & AU).
  destruct AU as (m & rsvd & olen & chain & SW & FO & _ & _ & _ & (_ & _ & _ & _ & CH) & (k & der & _ & _ & _ & _ & SG)).
  destruct (HK _ _ _ _ _ CH SG) as (h & data & RS & ED). pose proof RS as (slots & ex & req & u & sg & R & s & sl & t & nn & fi & r & HS & SE & _ & ES & EH & (rest & ER) & _).
  assert (S2 : sha2 h). { rewrite <- EH. eapply signed_sha2; eauto. rewrite ER. reflexivity. }
  assert (S1 : sha2 (al_base_hash al)).
  { destruct (told_certificate_algorithms _ _ _ _ _ _ _ _ _ T) as (e0 & e1 & _ & T'). exact (sha2_selected _ _ _ _ _ _ T'). }
  set (log := events_log ss (ev0 ++ challenges slot nonces) ++ out ++ firstn (length rsp - ss) rsp) in *.
  assert (EHH : al_base_hash al = h).
  { apply hash_len_sha2; auto. destruct HQ as (_ & _ & HCQ). destruct HS as (_ & _ & HCR).
    rewrite <- (proj1 (HCQ _ log S1)), <- (proj1 (HCR _ data S2)). now rewrite ED. }
  exists (cc_leaf_cert chain), h, slot, ss, data. cbv zeta. split; [exact RS|]. split; [unfold certified; eauto|]. split; [exact EO|]. split.
  - exists (events_log ss (ev0 ++ challenges slot nonces) ++ [0x11; 0x83; slot; 0]%N), (firstn (length rsp - ss) rsp).
    rewrite EO. rewrite <- !app_assoc. reflexivity.
  - fold log. destruct (list_eq_dec N.eq_dec log data) as [E|NE]; [left; auto|right].
    split; [auto|]. split; [auto|]. rewrite <- SH, <- EHH. rewrite EHH. rewrite <- EHH at 1. rewrite ED. reflexivity.
Qed.

(** In a world where no responder is ever sent a request with trailing bytes, and
    if the requester accepted no response with trailing bytes, the two sides
    moreover agree on all of the session: capabilities, algorithms, and every
    message, up to the signature itself. *)
Theorem C64_agreement (P : list (list N * list N) -> Prop) root exq Q pre req auth al ss :
  @req_setting cq kq -> same_hash kq kr -> @feature_rand cq = @feature_rand cr ->
  (forall ex, P ex -> Forall (@exact_request cr) (map fst ex)) -> keys_held_by_responders kq cr kr P root trust_time ->
  @req_session cq kq root (as_events exq) Q -> exq = pre ++ [(req, auth)] -> code auth = 0x03%N ->
  selected (as_events exq) al -> sig_len (al_base_asym al) = Some ss ->
  Forall (@exact_response cq (hash_len (al_base_hash al)) ss) (map snd exq) ->
  signed_collision kq cr kr P root trust_time (al_base_hash al) (t_get (req_transcript Q)) \/
  exists slots earlier recent R id,
    @setting cr kr slots /\ @session cr kr slots (earlier ++ recent) R /\ rsp_state R = Some (RspChallenge id) /\
    Forall2 (same_exchange ss) exq recent /\
    ri_algorithms id = al /\ ri_requester_ct id = 12%N /\ flags_named ReqFlags_from_str (@CAPABILITIES cq) (ri_requester_cap id) /\
    exists q m, In (q, m) exq /\ m = [0x11; 0x61]%N ++ capabilities_layout (ri_responder_ct id) (ri_responder_cap id).
Proof.
  intros HQ SH HFR HP HK SQ EX CA SE SL XQ.
  destruct (@req_shape cq kq root exq Q pre req auth HQ SQ EX CA)
    as (v & own & ct & fl & al0 & slot & portion & na & fs & body & remainder & nonce & m1 & m2 & m3 & m4 & m5 & ss0 & EXQ
        & TA & _ & _ & _ & _ & _ & _ & _ & _ & _ & _ & _ & _ & _ & _ & SL0 & AU & _).
  assert (al0 = al) as ->.
  { eapply (@selected_unique cq kq); eauto. destruct (told_selected _ _ _ _ _ _ TA) as (m & b & I & Y). exists m, b. split; [|exact Y].
    rewrite <- (firstn_skipn 3 exq), as_events_app, received_app. apply in_or_app. left. exact I. }
  assert (ss0 = ss) as -> by congruence.
  destruct AU as (m & rsvd & olen & chain & SW & FO & _ & _ & _ & (_ & _ & _ & _ & CH) & (k & der & _ & _ & _ & _ & SG)).
  destruct (HK _ _ _ _ _ CH SG) as (h & data & RS & EM).
  pose proof RS as (slots & ex & rq & u & sg & R & s & sl & t & nn & fi & r & HS & SR & XR & ES & EH & (rest & ER) & _ & _ & LS & ED & _).
  assert (EC : code rq = 0x83%N) by (rewrite ER; reflexivity).
  assert (TR : t_get (rsp_transcript R) = data).
  { rewrite (C27_transcript_is_log _ _ _ _ HS SR ES). unfold negotiated_sig_len. rewrite LS, ED. unfold log_of. rewrite fold_left_app. cbn [fold_left log_one].
    rewrite EC. cbn [N.eqb Pos.eqb]. rewrite app_length. replace (length u + length sg - length sg) with (length u) by lia.
    now rewrite firstn_app, Nat.sub_diag, firstn_all, app_nil_r. }
  assert (ED' : @sha kq (al_base_hash al) (t_get (req_transcript Q)) = @sha kr (al_base_hash (ri_algorithms s)) (t_get (rsp_transcript R)))
    by (rewrite TR, EH; exact EM).
  assert (LAST : exists ex' y, ex ++ [(rq, u ++ sg)] = ex' ++ [y] /\ code (fst y) = 0x83%N) by (exists ex, (rq, u ++ sg); auto).
  destruct (C40_agreement_partial cq kq cr kr root exq Q pre req auth slots _ R s al ss HQ HS SH HFR SQ EX CA SE SL SR ES LAST XQ (HP _ XR) ED')
    as [C|(A1 & A2 & A3 & A4 & earlier & recent & EE & F2)]; [left|right].
  { exists (cc_leaf_cert chain), (t_get (rsp_transcript R)). split; [|split; [unfold certified; eauto|exact C]].
    assert (S2 : sha2 h) by (rewrite <- EH; eapply signed_sha2; eauto).
    assert (EHH : al_base_hash al = h).
    { apply hash_len_sha2; [apply C|exact S2|]. destruct HQ as (_ & _ & HCQ). destruct HS as (_ & _ & HCR).
      rewrite <- (proj1 (HCQ _ (t_get (req_transcript Q)) (proj1 C))), <- (proj1 (HCR _ data S2)). now rewrite EM. }
    rewrite EHH, TR. exact RS. }
  exists slots, earlier, recent, R, s. rewrite <- EE. auto 10.
Qed.
End PropAuth.

(** * A world that meets the hypotheses *)
(** The certification authority certified one key, used by one responder, once:
    in the sample run.  Only that signature verifies, only over the digest then
    signed. *)
#[local] Existing Instance sample_cfg.
Fixpoint same_list (a b : list N) : bool :=
  match a, b with [], [] => true | x :: a, y :: b => (x =? y)%N && same_list a b | _, _ => false end.
Lemma same_list_eq a : forall b, same_list a b = true -> a = b.
Proof.
  induction a as [|x a IH]; intros [|y b] E; try discriminate; [reflexivity|]. cbn in E. apply andb_prop in E as [E1 E2].
  apply N.eqb_eq in E1 as ->. f_equal. auto.
Qed.
Definition signed_log : list N := Eval vm_compute in t_get (rsp_transcript (served_R sample_requests)).
Definition signed_digest : list N := Eval vm_compute in toy_hash 1 signed_log.
Definition signature_raw : list N := Eval vm_compute in skipn (length (sample_response 5) - 64) (sample_response 5).
Definition signature_der : list N := Eval vm_compute in
  [0x30; 68; 2; 32]%N ++ firstn 32 signature_raw ++ [2; 32]%N ++ skipn 32 signature_raw.
Definition world_crypto : Crypto :=
  Build_Crypto ProviderRing toy_hash (fun _ => true) (fun _ => true) (fun _ _ _ _ _ => true)
    (fun _ leaf msg der => same_list leaf [0x30; 2; 5; 9]%N && same_list msg signed_digest && same_list der signature_der).
Lemma world_keys (P : list (list N * list N) -> Prop) : P sample_exchanges ->
  keys_held_by_responders world_crypto sample_cfg sample_crypto P [1; 2; 3]%N trust_time.
Proof.
  intros HP asym leaf ints msg der _ SG. cbn [webpki_sig_ok world_crypto] in SG. apply andb_prop in SG as [SG _]. apply andb_prop in SG as [S1 S2].
  apply same_list_eq in S1, S2. subst leaf msg. exists 1%N, signed_log. split; [|reflexivity].
  assert (SE : @session sample_cfg sample_crypto sample_slots sample_exchanges (served_R sample_requests)).
  { replace sample_exchanges with (served_ex sample_requests) by (vm_compute; reflexivity).
    apply served_session; [reflexivity|apply bytes_all; reflexivity|vm_compute; discriminate]. }
  exists sample_slots, (firstn 5 sample_exchanges), (sample_request 5),
    (firstn (length (sample_response 5) - 64) (sample_response 5)), signature_raw, (served_R sample_requests),
    (mkRspId 12 sample_own_q 12 sample_own_r agreed_algorithms), 0%N, MHNone, (repeat 7%N 32), (sample_slot 5), [].
  assert (EX : firstn 5 sample_exchanges ++ [(sample_request 5, firstn (length (sample_response 5) - 64) (sample_response 5) ++ signature_raw)] = sample_exchanges)
    by (vm_compute; reflexivity).
  rewrite EX. split; [exact sample_setting|]. split; [exact SE|]. split; [exact HP|]. split; [vm_compute; reflexivity|]. split; [reflexivity|].
  split; [exists []; vm_compute; reflexivity|]. split; [reflexivity|]. split; [reflexivity|]. split; [vm_compute; reflexivity|].
  split; vm_compute; reflexivity.
Qed.
Definition world_driven (n : nat) : list event * bool * Requester :=
  match @drive sample_cfg world_crypto 2 (firstn n sample_responses) sample_q0 with Some x => x | None => ([], false, sample_q0) end.
Example C64_example :
  @req_setting sample_cfg world_crypto /\ same_hash world_crypto sample_crypto /\
  keys_held_by_responders world_crypto sample_cfg sample_crypto (fun ex => Forall exact_request (map fst ex)) [1; 2; 3]%N trust_time /\
  (exists ev Q Q1 Q2 out buf', @req_session sample_cfg world_crypto [1; 2; 3]%N ev Q /\
    @requester_next_request sample_cfg world_crypto Q (repeat 7%N 32) big_buf = (Ok out, buf', Q1) /\
    @requester_handle_msg sample_cfg world_crypto Q1 (sample_response 5) = (Ok true, Q2)) /\
  code (sample_response 5) = 0x03%N /\
  (exists Q, @req_session sample_cfg world_crypto [1; 2; 3]%N (as_events sample_exchanges) Q) /\
  selected (as_events sample_exchanges) agreed_algorithms /\
  Forall (exact_response (hash_len (al_base_hash agreed_algorithms)) 64) (map snd sample_exchanges).
Proof.
  assert (DS : forall n, n <= 6 -> @req_session sample_cfg world_crypto [1; 2; 3]%N (fst (fst (world_driven n))) (snd (world_driven n))).
  { intros n L. assert (E : @drive sample_cfg world_crypto 2 (firstn n sample_responses) sample_q0 = Some (world_driven n)).
    { do 7 (destruct n as [|n]; [vm_compute; reflexivity|]). lia. }
    destruct (world_driven n) as [[ev b] R]. cbn [fst snd].
    apply (@drive_session sample_cfg world_crypto [1; 2; 3]%N _ _ _ [] _ _ _ (@req_session_new sample_cfg world_crypto _)) in E; [exact E| |].
    - enough (X : Forall (fun r : list N => forallb (fun x : N => (x <? 256)%N) r = true) sample_responses).
      { rewrite <- (firstn_skipn n sample_responses) in X. now apply Forall_app in X. }
      repeat (constructor; [vm_compute; reflexivity|]). constructor.
    - rewrite firstn_length. change (length sample_responses) with 6. lia. }
  split; [exact sample_req_setting|]. split; [intros h d; reflexivity|]. split; [apply world_keys; exact sample_exact_requests|].
  split; [|split; [reflexivity|split; [|split]]].
  - exists (fst (fst (world_driven 5))), (snd (world_driven 5)).
    destruct (@requester_next_request sample_cfg world_crypto (snd (world_driven 5)) (repeat 7%N 32) big_buf) as [[o buf'] Q1] eqn:E1.
    assert (EO : exists out, o = Ok out).
    { replace o with (fst (fst (@requester_next_request sample_cfg world_crypto (snd (world_driven 5)) (repeat 7%N 32) big_buf))) by (rewrite E1; reflexivity).
      eexists. vm_compute. reflexivity. }
    destruct EO as (out & ->).
    destruct (@requester_handle_msg sample_cfg world_crypto Q1 (sample_response 5)) as [r Q2] eqn:E2.
    exists Q1, Q2, out, buf'. split; [apply (DS 5); lia|]. split; [reflexivity|].
    assert (ER : fst (let '(_, _, Q1) := @requester_next_request sample_cfg world_crypto (snd (world_driven 5)) (repeat 7%N 32) big_buf in
              @requester_handle_msg sample_cfg world_crypto Q1 (sample_response 5)) = Ok true) by (vm_compute; reflexivity).
    rewrite E1, E2 in ER. cbn [fst] in ER. subst r. first [reflexivity|exact E2].
  - exists (snd (world_driven 6)). replace (as_events sample_exchanges) with (fst (fst (world_driven 6))) by (vm_compute; reflexivity). apply (DS 6). lia.
  - exact (proj1 (proj2 (proj2 (proj2 C40_example)))).
  - exact sample_exact_responses.
Qed.
Print Assumptions C64_authentication.
Print Assumptions C64_agreement.
