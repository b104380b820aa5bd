(** C91: honest endpoints authenticate only with the chain in slot 0. *)
From Coq Require Import String.
From Verif Require Import Base BaseLemmas Config Encoding MsgCommon MsgVersion MsgCapabilities MsgAlgorithms MsgDigest
     MsgCertificates MsgChallenge MsgError Transcript Crypto Responder Requester SpecWire SpecMsgs SpecResponder SpecRequester SpecAgree
     PropTools RspStep PropResponder PropRspState PropRspAns ReqStep ReqMsg PropRequester PropReqState PropReqPanic PropAgree PropMitm PropChain
     Sample SampleRun SampleReq.
Open Scope list_scope.
#[local] Opaque chain_bytes.
#[local] Arguments Nat.leb : simpl never.

Section SlotZero.
Variables (cq : Config) (kq : Crypto) (cr : Config) (kr : Crypto).

Definition supplied (i : step_input) : Prop := fresh_ok (in_fresh i) /\ rnd_ok (in_rnd i).

(** Both ends of a faithful run. *)
Lemma faithful_sessions root slots ins ex b Q R : Forall supplied ins -> faithful cq kq cr kr root slots ins ex b Q R ->
  @req_session cq kq root (as_events ex) Q /\ @session cr kr slots ex R.
Proof.
  intros FA F. induction F as [|ins ex Q R i req out b Q' R' F IH X]; [split; constructor|].
  apply Forall_app in FA as [FA FI]. inversion FI as [|? ? [FR RK] _]; subst. destruct (IH FA) as [SQ SR].
  destruct X as (BQ & BO & Q1 & qb & rb & E1 & E2 & E3). split.
  - rewrite as_events_app. cbn [as_events flat_map app fst snd]. change [Sent req; Got out] with ([Sent req] ++ [Got out]). rewrite app_assoc.
    eapply (@req_session_got cq kq); [|exact BO|exact E3]. eapply (@req_session_sent cq kq); [exact SQ|exact FR|exact E1].
  - eapply (@session_step cr kr); [exact SR|exact BQ|exact RK|exact E2].
Qed.

(** A run in which the responder was authenticated: slot 0 is filled, and its
    chain is the one the requester trusts; no other slot matters. *)
Theorem C91_slot_zero_partial root slots ins pre req auth b Q R :
  @req_setting cq kq -> @setting cr kr slots -> Forall supplied ins ->
  faithful cq kq cr kr root slots ins (pre ++ [(req, auth)]) b Q R -> code auth = 0x03%N ->
  exists filled asym ds chain, nth_error slots 0 = Some (Some filled) /\
    @chain_trusted cq kq root asym ds (chain_bytes (fs_chain filled)) chain.
Proof.
  intros HQ HS FA F CA. destruct (faithful_sessions _ _ _ _ _ _ _ FA F) as [SQ SR].
  remember (pre ++ [(req, auth)]) as exq eqn:EX.
  destruct (@req_shape cq kq root exq Q pre req auth HQ SQ EX CA)
    as (v & own & ct & fl & al & slot & portion & na & fs & body & remainder & nonce & m1 & m2 & m3 & m4 & m5 & ss & EXQ
        & _ & _ & _ & _ & _ & _ & _ & _ & _ & _ & _ & SW4 & SW5 & LP & _ & SL & AU & _).
  rewrite EXQ in SR.
  destruct (@last_three cr kr slots [(get_version_bytes, m1); (@capabilities_msg own, m2); (offer_msg na, m3)]
     (get_digests_msg, m4) (@get_certificate_msg cq, m5) (challenge_msg slot nonce, auth) R HS SR)
    as (s & mask & _ & _ & _ & LC & _ & D5); [reflexivity|eexists; reflexivity|reflexivity|].
  destruct SW5 as (rest & SW5). cbn [app snd] in SW5, D5. rewrite D5 in SW5. apply (f_equal (skipn 2)) in SW5. cbn [skipn] in SW5.
  assert (LAY : certificate_layout slot portion remainder = certificate_layout 0 (slot_chain_bytes slots 0) 0).
  { symmetry. apply (cancel_certificate _ _ _ _ _ _ [] rest LC LP). rewrite app_nil_r. exact SW5. }
  clear SW5. unfold certificate_layout in LAY.
  apply cancel in LAY as [E1 LAY]; [|reflexivity]. apply cancel in LAY as [_ LAY]; [|reflexivity]. apply cancel in LAY as [_ LAY]; [|reflexivity].
  apply cancel in LAY as [_ EP]; [|reflexivity].
  destruct AU as (am & rsvd & olen & chain & _ & _ & _ & _ & _ & CT & _).
  assert (SC : exists filled, nth_error slots 0 = Some (Some filled) /\ portion = chain_bytes (fs_chain filled)).
  { unfold slot_chain_bytes, slot_chain in EP. destruct (nth_error slots 0) as [[filled|]|]; [eauto|exfalso..];
      rewrite (proj1 CT) in EP; apply (f_equal (@List.length N)) in EP; rewrite GramCert.chain_bytes_length in EP; cbn [List.length] in EP; lia. }
  destruct SC as (filled & NTH & EP'). rewrite EP' in CT. exists filled. eauto.
Qed.
End SlotZero.

(** * Witnesses *)
#[local] Existing Instance sample_cfg.
#[local] Existing Instance sample_crypto.
(** The chain the sample requester trusts, in slot 3 only. *)
Definition slots_three : list (option FilledSlot) := [None; None; None; Some (sample_slot 5); None].
Definition step_of (k : N) : step_input := mkIn (repeat (k + 1)%N 32) big_buf (sample_rnd k) big_buf.
Definition run_three : list (list N * list N) * bool * Requester * Responder :=
  exchanges 5 1 (requester_new [1; 2; 3]%N) (responder_new slots_three).

Lemma exchange_faithful slots root ins ex k Q R req out b Q' R' :
  faithful sample_cfg sample_crypto sample_cfg sample_crypto root slots ins ex false Q R ->
  exchange k Q R = Some (req, out, b, Q', R') -> bytes req -> bytes out ->
  faithful sample_cfg sample_crypto sample_cfg sample_crypto root slots (ins ++ [step_of k]) (ex ++ [(req, out)]) b Q' R'.
Proof.
  intros F E BQ BO. eapply faithful_step; [exact F|]. split; [exact BQ|]. split; [exact BO|]. unfold exchange in E.
  destruct (requester_next_request Q (repeat (k + 1)%N 32) big_buf) as [[[req1|e|p] qb] Q1] eqn:E1; try discriminate.
  destruct (responder_handle_msg R (sample_rnd k) req1 big_buf) as [[[out1 [[]|e|p]|p] rb] R1] eqn:E2; try discriminate.
  destruct (requester_handle_msg Q1 out1) as [[b1|e|p] Q2] eqn:E3; try discriminate.
  injection E as <- <- <- <- <-. exists Q1, qb, rb. cbn [in_fresh in_reqbuf in_rnd in_rspbuf step_of]. auto.
Qed.
Lemma exchanges_faithful slots root : forall n k ins ex Q R l b Q' R',
  faithful sample_cfg sample_crypto sample_cfg sample_crypto root slots ins ex false Q R ->
  exchanges n k Q R = (l, b, Q', R') -> List.length l = n -> b = false ->
  forallb (fun x => forallb (fun c => c <? 256)%N (fst x) && forallb (fun c => c <? 256)%N (snd x)) l = true ->
  faithful sample_cfg sample_crypto sample_cfg sample_crypto root slots (ins ++ map (fun i => step_of (k + N.of_nat i)) (seq 0 n)) (ex ++ l) false Q' R'.
Proof.
  induction n as [|n IH]; intros k ins ex Q R l b Q' R' F E L B A; cbn [exchanges] in E.
  - injection E as <- <- <- <-. cbn [seq map]. now rewrite !app_nil_r.
  - destruct (exchange k Q R) as [[[[[req out] b1] Q1] R1]|] eqn:E1; [|injection E as <- <- <- <-; discriminate].
    destruct (exchanges n (k + 1) Q1 R1) as [[[l2 b2] Q2] R2] eqn:E2. injection E as <- <- <- <-.
    apply orb_false_iff in B as [-> ->]. cbn [forallb fst snd] in A. apply andb_true_iff in A as [A1 A2]. apply andb_true_iff in A1 as [A1 A3].
    apply bytes_check in A1, A3. pose proof (exchange_faithful _ _ _ _ _ _ _ _ _ _ _ _ F E1 A1 A3) as F1.
    specialize (IH (k + 1)%N _ _ _ _ _ _ _ _ F1 E2). cbn [List.length] in L. specialize (IH ltac:(lia) eq_refl A2).
    cbn [seq map]. rewrite N.add_0_r, <- seq_shift, map_map.
    replace (map (fun x => step_of (k + N.of_nat (S x))) (seq 0 n)) with (map (fun i => step_of (k + 1 + N.of_nat i)) (seq 0 n))
      by (apply map_ext; intros; f_equal; lia).
    rewrite <- !app_assoc in IH. exact IH.
Qed.

(** Everything up to the CHALLENGE succeeds; the CHALLENGE is refused, and the
    requester fails. *)
Definition run_ex : list (list N * list N) := Eval vm_compute in fst (fst (fst run_three)).
Definition run_q : Requester := snd (fst run_three).
Definition run_r : Responder := snd run_three.
Definition challenge_q : Requester := snd (requester_next_request run_q (repeat 7%N 32) big_buf).
Definition the_challenge : list N := Eval vm_compute in
  match fst (fst (requester_next_request run_q (repeat 7%N 32) big_buf)) with Ok c => c | _ => [] end.
Definition the_answer : list N := [18; 127; 1; 0]%N.
Lemma run_parts {A B C D} (x : A * B * C * D) a b c d : fst (fst (fst x)) = a -> snd (fst (fst x)) = b -> snd (fst x) = c -> snd x = d -> x = (a, b, c, d).
Proof. destruct x as [[[? ?] ?] ?]. cbn. congruence. Qed.
Lemma run_three_is : run_three = (run_ex, false, run_q, run_r).
Proof.
  apply run_parts; [vm_compute; reflexivity|vm_compute; reflexivity|reflexivity|reflexivity].
Qed.
Lemma challenge_sent : fst (fst (requester_next_request run_q (repeat 7%N 32) big_buf)) = Ok the_challenge.
Proof. vm_compute. reflexivity. Qed.
Lemma challenge_refused : fst (fst (responder_handle_msg run_r (sample_rnd 6) the_challenge big_buf)) = Replied the_answer (Err RspInvalidSlot).
Proof. vm_compute. reflexivity. Qed.
Lemma refusal_heard : fst (requester_handle_msg challenge_q the_answer) = Err (ReqUnexpectedMsgCode 3 18).
Proof. vm_compute. reflexivity. Qed.
Lemma steps_supplied k n : (k + N.of_nat n < 255)%N -> Forall supplied (map (fun i => step_of (k + N.of_nat i)) (seq 0 n)).
Proof.
  intros L. apply Forall_map, Forall_forall. intros i I. apply in_seq in I. split; [|apply sample_rnd_ok; lia].
  split; [reflexivity|]. apply bytes_repeat. red. lia.
Qed.
Theorem C91_other_slot_refuted :
  @built sample_cfg sample_crypto /\ setting slots_three /\ nth_error slots_three 3 = Some (Some (sample_slot 5)) /\
  good_slot sample_cfg sample_crypto [1; 2; 3]%N (sample_slot 5) /\
  exists ins Q R Q1 qbuf rbuf R' Q2,
    Forall supplied ins /\ faithful sample_cfg sample_crypto sample_cfg sample_crypto [1; 2; 3]%N slots_three ins run_ex false Q R /\
    List.length run_ex = 5 /\ starts_with [0x11; 0x01; 0; 8]%N (snd (nth 3 run_ex ([], []))) /\
    requester_next_request Q (repeat 7%N 32) big_buf = (Ok the_challenge, qbuf, Q1) /\
    responder_handle_msg R (sample_rnd 6) the_challenge big_buf = (Replied the_answer (Err RspInvalidSlot), rbuf, R') /\
    requester_handle_msg Q1 the_answer = (Err (ReqUnexpectedMsgCode 3 18), Q2).
Proof.
  split; [exact sample_built|]. split; [split; [reflexivity|split; [apply Nat.leb_le; reflexivity|exact (proj2 (proj2 sample_setting))]]|].
  split; [reflexivity|]. split; [exact (honest_trust _ _ _ _ _ _ _ _ _ (proj1 (proj1 C39_example)))|].
  exists ([] ++ map (fun i => step_of (1 + N.of_nat i)) (seq 0 5)), run_q, run_r.
  pose proof challenge_sent as H1. pose proof challenge_refused as H2. pose proof refusal_heard as H3.
  unfold challenge_q in H3. pose proof run_three_is as H4. unfold run_three in H4.
  set (e1 := requester_next_request run_q (repeat 7%N 32) big_buf) in *. set (e2 := responder_handle_msg run_r (sample_rnd 6) the_challenge big_buf) in *.
  set (e3 := requester_handle_msg (snd e1) the_answer) in *.
  exists (snd e1), (snd (fst e1)), (snd (fst e2)), (snd e2), (snd e3).
  split; [exact (steps_supplied 1 5 eq_refl)|]. split.
  { refine (exchanges_faithful slots_three [1; 2; 3]%N 5 1 [] [] _ _ run_ex false run_q run_r (faithful_start _ _ _ _ _ _) H4 eq_refl eq_refl _). vm_compute. reflexivity. }
  split; [reflexivity|]. split; [eexists; reflexivity|].
  split; [rewrite <- H1; now rewrite <- !surjective_pairing|].
  split; [rewrite <- H2; now rewrite <- !surjective_pairing|].
  rewrite <- H3. now rewrite <- !surjective_pairing.
Qed.
(** The sample run, slot 0 being filled, is authenticated. *)
Definition full_run := exchanges 6 1 (requester_new [1; 2; 3]%N) (responder_new sample_slots).
Example C91_example : exists x, fst (fst (fst full_run)) = firstn 5 sample_exchanges ++ [x] /\ code (snd x) = 0x03%N /\
  snd (fst (fst full_run)) = true /\ nth_error sample_slots 0 = Some (Some (sample_slot 5)).
Proof. eexists. split; [vm_compute; reflexivity|]. split; [reflexivity|]. split; vm_compute; reflexivity. Qed.
Print Assumptions C91_slot_zero_partial.
Print Assumptions C91_other_slot_refuted.
