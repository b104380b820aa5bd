(** C40: exact framing on one side only does not help.  Two attacks, on the
    default configuration: in one the requester receives no trailing bytes, in the
    other the responder receives none. *)
From Verif Require Import Base BaseLemmas Config ConfigBuild Encoding MsgCommon MsgVersion MsgCapabilities MsgAlgorithms MsgDigest
     MsgCertificates MsgChallenge MsgError Transcript Crypto Responder Requester SpecWire SpecMsgs SpecResponder SpecRequester SpecAgree
     PropTools PropAlg PropTables PropRspState PropReqState PropAgree PropMitm Sample SampleRun SampleReq.
#[local] Existing Instance sample_cfg.
#[local] Existing Instance sample_crypto.

(** A requester that completed by authentication, and a responder whose answer
    to CHALLENGE was delivered to it, with equal transcripts: but they differ on
    the capabilities of either side. *)
Definition confused (exq ex : list (list N * list N)) (id : RspIdState) : Prop :=
  exists root Q slots R, req_setting /\ setting slots /\
  req_session root (as_events exq) Q /\ req_state Q = Some ReqNewSession /\ session slots ex R /\ rsp_state R = Some (RspChallenge id) /\
  (exists exq' ex' q auth, exq = exq' ++ [(q, auth)] /\ ex = ex' ++ [(q, auth)] /\ code auth = 0x03%N) /\
  t_get (req_transcript Q) = t_get (rsp_transcript R) /\
  ~ flags_named ReqFlags_from_str CAPABILITIES (ri_requester_cap id) /\
  (forall ct fl m, In m (map snd exq) -> starts_with ([0x11; 0x61]%N ++ capabilities_layout ct fl) m -> fl <> ri_responder_cap id).
Lemma confused_check slots reqs rsps exq ex id :
  setting slots -> forallb (forallb (fun b => b <? 256)%N) reqs = true -> forallb (forallb (fun b => b <? 256)%N) rsps = true ->
  match serve 1 reqs (responder_new slots), drive 2 rsps sample_q0 with
  | Some (ex', R), Some (ev, _, Q) =>
    ex' = ex /\ ev = as_events exq /\ rsp_state R = Some (RspChallenge id) /\ req_state Q = Some ReqNewSession /\
    t_get (req_transcript Q) = t_get (rsp_transcript R)
  | _, _ => False
  end ->
  (1 + N.of_nat (length reqs) < 256)%N -> (2 + N.of_nat (length rsps) < 256)%N ->
  (exists exq' ex' q auth, exq = exq' ++ [(q, auth)] /\ ex = ex' ++ [(q, auth)] /\ code auth = 0x03%N) ->
  ri_requester_cap id = 6%N -> (ri_responder_cap id mod 256 <> 6)%N ->
  forallb (fun m => match m with 0x11 :: 0x61 :: _ => (nth 8 m 0 =? 6) | _ => true end)%N (map snd exq) = true ->
  confused exq ex id.
Proof.
  intros HS B1 B2 RUN L1 L2 LAST C1 C2 C3.
  destruct (serve 1 reqs (responder_new slots)) as [[ex' R]|] eqn:ER; [|contradiction].
  destruct (drive 2 rsps sample_q0) as [[[ev b] Q]|] eqn:EQ; [|contradiction].
  destruct RUN as (-> & -> & S1 & S2 & ET).
  apply (drive_session [1; 2; 3]%N _ _ _ [] _ _ _ (req_session_new _)) in EQ; [|apply Forall_forall; apply forallb_forall; exact B2|exact L2].
  apply (serve_session reqs 1 [] _ _ _ L1 (bytes_all _ B1) (session_new slots)) in ER.
  exists [1; 2; 3]%N, Q, slots, R. refine (conj sample_req_setting (conj HS (conj EQ (conj S2 (conj ER (conj S1 (conj LAST (conj ET (conj _ _))))))))).
  - intros F. rewrite C1 in F.
    assert (HB : gen_config true true true sample_toml = Ok sample_cfg) by reflexivity.
    pose proof (@C44_accepted_config_never_fails sample_crypto _ _ _ _ _ HB) as (_ & _ & _ & (m & E1 & E2) & _).
    change (sc_capabilities sample_toml) with (@CAPABILITIES sample_cfg) in E2. vm_compute in E1. injection E1 as <-.
    assert (X : N.testbit 6 7 = true) by (apply F, E2; reflexivity). discriminate X.
  - intros ct fl m I (r & EM) ->. rewrite forallb_forall in C3. apply C3 in I. rewrite EM in I. apply N.eqb_eq in I. exact (C2 I).
Qed.

(** * The requester receives no trailing bytes *)
(** SHA-512 is negotiated; the responder has one slot with a root hash of that size.
    The attacker hides the responder's negotiation in the digests it announces to
    the requester, and the requester's in the bytes trailing GET_VERSION. *)
Definition long_slots : list (option FilledSlot) :=
  [Some (mkSlot 0x10 4 (mkChain (repeat 5 64) [0x30; 2; 5; 9] [])%N toy_signer); None; None; None; None].
Definition a_negotiate : list N := [0x11; 0xE3]%N ++ negotiate_layout 4 48 1 0x10 4 [] [] (no_ext own_structs).
Definition a_forged : list N := [0x11; 0x63]%N ++ algorithms_layout 4 52 1 4 0x10 4 (no_ext forged_structs).
Definition a_digest_head : list N := [0x11; 0x01; 0; 0x0F]%N.
Definition a_requests : list (list N) := Eval vm_compute in
  [sample_request 0 ++ version_reply ++ sample_request 1 ++ weak_r ++ sample_request 2 ++ a_forged ++ get_digests_msg ++ a_digest_head;
   weak_q; a_negotiate; get_digests_msg ++ repeat 0%N 50; sample_request 4; sample_request 5].
Definition a_ex : list (list N * list N) := Eval vm_compute in
  match serve 1 a_requests (responder_new long_slots) with Some (l, _) => l | None => [] end.
Definition a_hidden : list N := Eval vm_compute in
  match map snd a_ex with
  | ver :: caps :: alg :: dig :: _ => ver ++ weak_q ++ caps ++ a_negotiate ++ alg ++ get_digests_msg ++ repeat 0%N 50 ++ dig
  | _ => []
  end.
Definition a_responses : list (list N) := Eval vm_compute in
  [version_reply; weak_r; a_forged; a_digest_head ++ a_hidden; nth 4 (map snd a_ex) []; nth 5 (map snd a_ex) []].
Definition a_exq : list (list N * list N) := Eval vm_compute in combine sample_requests a_responses.
Definition a_algorithms_r : Algorithms := mkAlgorithms 1 4 0x10 4 4 agreed_structs.
Definition a_algorithms_q : Algorithms := mkAlgorithms 1 4 0x10 4 4 forged_structs.
Lemma long_setting : setting long_slots.
Proof. destruct sample_setting as (_ & H2 & H3). split; [reflexivity|]. auto. Qed.
Lemma exact_a_responses : Forall (exact_response 64 64) a_responses.
Proof.
  constructor; [left; exists [mkVE 1 0 0 0; mkVE 1 1 0 0]; reflexivity|]. constructor; [right; left; exists 12%N, 6%N; reflexivity|].
  constructor.
  { right; right; left. exists (skipn 2 a_forged), a_algorithms_q. split; [|reflexivity].
    exists 52%N, (no_ext forged_structs). split; [lia|]. split; [apply no_ext_ok; repeat (constructor; [apply bits_check; reflexivity|]); constructor|].
    split; [repeat (constructor; [apply one_check; reflexivity|]); constructor|]. do 4 (split; [apply one_check; reflexivity|]).
    split; [reflexivity|]. split; [split; [cbn; lia|reflexivity]|]. reflexivity. }
  constructor; [do 3 right; left|].
  { exists 0x0F%N, (fun i => if i <? 4 then firstn 64 (skipn (64 * i) a_hidden) else repeat 0%N 64). split; [|vm_compute; reflexivity].
    intros i. destruct (i <? 4) eqn:L; [|reflexivity]. apply Nat.ltb_lt in L. do 4 (destruct i as [|i]; [reflexivity|]). lia. }
  constructor; [do 4 right; left; exists 0%N, (chain_bytes (mkChain (repeat 5 64) [0x30; 2; 5; 9] [])%N), 0%N; split; reflexivity|].
  constructor; [|constructor]. do 5 right. set (auth := nth 5 a_responses []).
  exists (mkChallengeAuth 0 1 false (firstn 64 (skipn 4 auth)) (repeat 6%N 32) (zeros 64) [] (skipn (length auth - 64) auth)), 0%N, 4%N.
  split; [|vm_compute; reflexivity]. split; [reflexivity|]. split; [cbn; lia|]. split; [reflexivity|]. split; [reflexivity|]. split; [reflexivity|].
  split; [|reflexivity]. split; [constructor|split; [apply Nat.leb_le; reflexivity|reflexivity]].
Qed.
Theorem C40_requester_exact_refuted : exists exq ex id al,
  confused exq ex id /\ Forall (exact_response (hash_len (al_base_hash al)) 64) (map snd exq) /\
  selected (as_events exq) al /\ sig_len (al_base_asym al) = Some 64 /\ al <> ri_algorithms id.
Proof.
  exists a_exq, a_ex, (mkRspId 12 6 12 sample_own_r a_algorithms_r), a_algorithms_q.
  split; [|split; [exact exact_a_responses|split; [|split; [reflexivity|discriminate]]]].
  - apply (confused_check long_slots a_requests a_responses); [exact long_setting|reflexivity|reflexivity| |reflexivity|reflexivity| |reflexivity|discriminate|reflexivity].
    + vm_compute. repeat split.
    + exists (firstn 5 a_exq), (firstn 5 a_ex), (sample_request 5), (nth 5 a_responses []). vm_compute. auto.
  - assert (P : algorithms_parse_body (skipn 2 a_forged) = Ok a_algorithms_q) by (vm_compute; reflexivity).
    apply C10_algorithms_parse in P as (body & r & EB & FM); [|apply bytes_check; reflexivity].
    exists a_forged, body. split; [vm_compute; auto|]. split; [apply bytes_check; reflexivity|]. split; [|exact FM].
    exists r. rewrite <- app_assoc, <- EB. reflexivity.
Qed.

(** * The responder receives no trailing bytes *)
(** The attacker hides the requester's GET_CAPABILITIES, a forged CAPABILITIES and
    the head of its NEGOTIATE_ALGORITHMS in the external algorithms of the
    NEGOTIATE_ALGORITHMS sent to the responder. *)
Definition b_hidden : list N := Eval vm_compute in sample_request 1 ++ weak_r ++ repeat 0%N 8 ++ firstn 32 (sample_request 2).
Definition b_negotiate : list N := Eval vm_compute in
  [0x11; 0xE3]%N ++ negotiate_layout 4 112 1 0x10 1 (firstn 32 b_hidden) (skipn 32 b_hidden) (no_ext own_structs).
Definition b_requests : list (list N) := Eval vm_compute in
  [sample_request 0; weak_q; b_negotiate; get_digests_msg; sample_request 4; sample_request 5].
Definition b_ex : list (list N * list N) := Eval vm_compute in served_ex b_requests.
Definition b_responses : list (list N) := Eval vm_compute in
  match map snd b_ex with
  | [ver; caps; alg; dig; cert; auth] => [ver ++ weak_q ++ caps ++ firstn 32 b_negotiate; weak_r ++ repeat 0%N 8; alg; dig; cert; auth]
  | _ => []
  end.
Definition b_exq : list (list N * list N) := Eval vm_compute in combine sample_requests b_responses.
Lemma exact_b_requests : Forall exact_request b_requests.
Proof.
  constructor; [left; reflexivity|]. constructor; [right; left; exists 12%N, 6%N; reflexivity|].
  constructor.
  { right; right; left. exists (skipn 2 b_negotiate), (mkNA 1 0x10 1 4 own_structs). split; [|reflexivity].
    exists 112%N, (firstn 32 b_hidden), (skipn 32 b_hidden), (no_ext own_structs).
    split; [lia|]. split; [exists 8; split; [lia|reflexivity]|]. split; [exists 8; split; [lia|reflexivity]|].
    split; [apply no_ext_ok, own_structs_ok|]. do 3 (split; [apply bits_check; reflexivity|]). split; [reflexivity|]. split; [split; [cbn; lia|reflexivity]|].
    reflexivity. }
  constructor; [do 3 right; left; reflexivity|]. constructor; [do 4 right; left; exists 0%N, 0%N, 1024%N; reflexivity|].
  constructor; [do 5 right; exists 0%N, MHNone, (repeat 7%N 32); split; reflexivity|]. constructor.
Qed.
Theorem C40_responder_exact_refuted : exists exq ex id,
  confused exq ex id /\ Forall exact_request (map fst ex).
Proof.
  exists b_exq, b_ex, (mkRspId 12 6 12 sample_own_r agreed_algorithms). split; [|exact exact_b_requests].
  apply (confused_check sample_slots b_requests b_responses); [exact sample_setting|reflexivity|reflexivity| |reflexivity|reflexivity| |reflexivity|discriminate|reflexivity].
  - vm_compute. repeat split.
  - exists (firstn 5 b_exq), (firstn 5 b_ex), (sample_request 5), (nth 5 b_responses []). vm_compute. auto.
Qed.
Print Assumptions C40_requester_exact_refuted.
Print Assumptions C40_responder_exact_refuted.
