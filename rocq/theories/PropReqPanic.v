(** C47: which responses make the requester panic. *)
From Verif Require Import Base BaseLemmas Config ConfigBuild Encoding MsgCommon MsgVersion MsgCapabilities MsgAlgorithms MsgDigest
     MsgCertificates MsgChallenge MsgError Transcript Crypto Responder Requester SpecWire SpecMsgs SpecResponder SpecRequester
     FlagLemmas PropTools PropTranscript PropVersionCaps PropAlg PropCerts PropChal PropGeneric PropTables PropDer RspParts RspStep RspPanic
     ReqStep ReqMsg PropRequester PropReqState PropReqLimits ReqPanic Sample SampleRun SampleReq.

#[local] Opaque chain_bytes.
#[local] Arguments Nat.leb : simpl never.
Section PropReqPanic.
Context {cfg : Config} {cr : Crypto}.
Lemma built_facts : built -> 1 <= NUM_SLOTS <= 8 /\ MAX_SIGNATURE_SIZE = 64 /\
  (forall s, In s SIGNING_ALGOS -> s = "ECDSA_ECC_NIST_P256"%string) /\ (provider = ProviderNone -> CAPABILITIES = []).
Proof.
  intros (c & H). pose proof (C44_accepted_config_never_fails _ _ _ _ _ H) as (A & _). pose proof (C44_refused _ _ _ _ _ H) as (_ & _ & B).
  split; [exact A|]. split; [exact B|]. unfold gen_config in H.
  destruct (max_signature_size _) as [ms|e|p] eqn:E1; try discriminate. simpl in H.
  destruct (cert_chains_validate c) as [[]|e|p] eqn:E2; try discriminate. simpl in H.
  destruct (validate_capabilities _ _) as [[]|e|p] eqn:E3; try discriminate. simpl in H. injection H as H.
  destruct (sig_algos_ok _ _ E1) as [_ HA]. split.
  - intros s I. apply HA. now rewrite <- H in I.
  - intros PN. rewrite PN in E3. unfold validate_capabilities in E3. simpl in E3. rewrite <- H. cbn [CAPABILITIES].
    destruct (sc_capabilities c); [auto|discriminate].
Qed.
Lemma built_setting : built -> hash_contract -> req_setting.
Proof. intros B HC. destruct (built_facts B) as (A1 & A2 & _). split; [lia|]. split; [rewrite A2; lia|auto]. Qed.

(** In such a build the selection can only be P-256 with SHA-2. *)
Lemma built_selection v own ct fl al ev : built -> told_algorithms v own ct fl al ev ->
  al_base_asym al = 0x10%N /\ (provider = ProviderRing -> sha2 (al_base_hash al)) /\ flags_named ReqFlags_from_str CAPABILITIES own.
Proof.
  intros B T. destruct (built_facts B) as (_ & _ & SA & _). destruct (told_selection _ _ _ _ _ _ T) as (na & fs & O & _ & _ & _ & SE).
  destruct SE as (_ & (i & I1 & I2) & (j & J1 & J2) & _). destruct O as (_ & _ & FN & HH & _). split; [|split].
  - rewrite I2. apply FN in I1 as (s & v' & IS & P & TB). rewrite (SA s IS) in P. vm_compute in P. injection P as <-.
    change 16%N with (2 ^ 4)%N in TB. rewrite N.pow2_bits_eqb in TB. apply N.eqb_eq in TB. subst i. reflexivity.
  - intros PR. rewrite J2. rewrite HH, PR in J1. unfold sha2. 
    destruct (N.lt_ge_cases j 3) as [L|L].
    + assert (j = 0 \/ j = 1 \/ j = 2)%N as [->|[->| ->]] by lia; auto.
    + rewrite N.bits_above_log2 in J1; [discriminate|]. change (N.log2 7) with 2%N. lia.
  - destruct T as [ev0 n m na' fs' body [ev1 n1 m1 _ F _ _ _ _] _ _ _ _ _ _ _]. exact F.
Qed.
Lemma built_ring own : built -> flags_named ReqFlags_from_str CAPABILITIES own -> forall fl, both cert_bit own fl = true -> provider = ProviderRing.
Proof.
  intros B F fl H. destruct (built_facts B) as (_ & _ & _ & PN). destruct provider; [auto|]. exfalso. specialize (PN eq_refl).
  unfold both in H. apply andb_true_iff in H as [H _]. apply F in H as (s & v & I & _). rewrite PN in I. exact I.
Qed.
Lemma app_snoc_asks (ev ev0 : list event) (a b : event) : ev ++ [a] = ev0 ++ [b] -> a = b.
Proof. intros H. now apply app_inj_tail in H. Qed.

(** After a request, whatever bytes come back (more than a header), handle_msg
    panics exactly in the situations [challenge_panics] lists: never before the
    challenge.  Not true: that it never panics. *)
Theorem C47_panic_iff_partial root ev R fresh buf out buf' R1 rsp :
  built -> hash_contract -> 64 <= MAX_DIGEST_SIZE ->
  req_session root ev R -> fresh_ok fresh -> requester_next_request R fresh buf = (Ok out, buf', R1) ->
  bytes rsp -> 2 < length rsp ->
  ((exists p, fst (requester_handle_msg R1 rsp) = Panic p) <->
   exists s, req_state R1 = Some (ReqChallenge s) /\ challenge_panics root s (t_get (req_transcript R1)) rsp).
Proof.
  intros B HC MD H FR EN HB HL. pose proof (built_setting B HC) as HS. destruct (session_now root ev R HS H) as (st & NW).
  destruct (now_sent root ev R st fresh buf out buf' R1 NW FR EN) as (st1 & (ER & ES & W & SO & NW1 & _) & NN).
  assert (LAST : forall ev0 m, told_version ev0 m -> m <> ev ++ [Sent out]).
  { intros ev0 m [n m' es _ _ _ _ _] E. apply app_inj_tail in E as [_ E]. discriminate. }
  assert (LAST2 : forall v own ct fl m, told_capabilities v own ct fl m -> m <> ev ++ [Sent out]).
  { intros v own ct fl m [ev0 n m' _ _ _ _ _ _] E. rewrite app_assoc in E. apply app_inj_tail in E as [_ E]. discriminate. }
  unfold requester_handle_msg. rewrite ES.
  assert (X : (exists p t', req_dispatch st1 (req_root R1) rsp (req_transcript R1) = (Panic p, t')) <->
              exists s, Some st1 = Some (ReqChallenge s) /\ challenge_panics root s (t_get (req_transcript R1)) rsp).
  { destruct st1 as [| |s|s|s|s|]; cbn [req_now] in NW1.
    - tauto.
    - split; [|intros (s & X & _); discriminate]. intros (p & t' & E). exfalso. cbn [req_dispatch] in E.
      apply bind_panic in E as [E|(s & t1 & _ & E)]; [|discriminate]. eapply version_panic; eauto.
    - split; [|intros (s' & X & _); discriminate]. intros (p & t' & E). exfalso. cbn [req_dispatch] in E.
      apply bind_panic in E as [E|(s' & t1 & _ & E)]; [|discriminate].
      destruct NW1 as (ev0 & n & own & T & EV & _ & _ & [(-> & _)|(_ & _ & Q1 & Q2)]).
      + rewrite app_nil_r in EV. symmetry in EV. exact (LAST _ _ T EV).
      + eapply (capabilities_panic rsp); eauto; congruence.
    - split; [|intros (s' & X & _); discriminate]. intros (p & t' & E). exfalso. cbn [req_dispatch] in E.
      apply bind_panic in E as [E|(s' & t1 & Y & E)].
      + destruct NW1 as (ev0 & n & na & T & EV & _ & _ & [(-> & _)|(_ & Q)]).
        * rewrite app_nil_r in EV. symmetry in EV. exact (LAST2 _ _ _ _ _ T EV).
        * eapply (algorithms_panic rsp); eauto; congruence.
      + destruct (_ && _); [|discriminate]. apply bind_panic in E as [E|(? & ? & _ & E)]; [|discriminate].
        apply lift_panic in E. unfold req_id_from in E. unfold req_alg_handle_msg in Y.
        do 5 (apply bind_inv in Y as (? & ? & _ & Y)). injection Y as <- <-. discriminate.
    - split; [|intros (s' & X & _); discriminate]. intros (p & t' & E). exfalso. cbn [req_dispatch] in E.
      destruct NW1 as (NW1 & _ & _ & BO). destruct (qi_digests s) as [d|] eqn:ED.
      + apply bind_panic in E as [E|(s' & t1 & Y & E)]; [eapply certificate_panic; eauto|].
        destruct (_ && _); [|discriminate]. apply bind_panic in E as [E|(? & ? & _ & E)]; [|discriminate].
        apply lift_panic in E. unfold req_chal_from in E. unfold handle_certificate in Y.
        do 4 (apply bind_inv in Y as (? & ? & _ & Y)). injection Y as <- <-. discriminate.
      + apply bind_panic in E as [E|(s' & t1 & Y & E)]; [|discriminate].
        destruct NW1 as (ev0 & n & T & _). destruct (built_selection _ _ _ _ _ _ B T) as (_ & S2 & F).
        specialize (S2 (built_ring _ B F _ BO)). eapply (digests_panic rsp); eauto.
        * unfold known_hash. destruct S2 as [-> |[-> | ->]]; simpl; auto.
        * destruct S2 as [-> |[-> | ->]]; cbn; lia.
    - destruct NW1 as (ev0 & nonces & d & T & EV & _ & _ & BO).
      destruct (told_certificate_algorithms _ _ _ _ _ _ _ _ _ T) as (e0 & e1 & _ & T').
      destruct (built_selection _ _ _ _ _ _ B T') as (A1 & S2 & F).
      assert (BC : both cert_bit (qh_requester_cap s) (qh_responder_cap s) = true).
      { destruct T as [? ? ? ? [? ? ? _ BC _ _ _] _ _ _]. exact BC. }
      pose proof (built_ring _ B F _ BC) as PR. specialize (S2 PR).
      assert (U : hash_usable (al_base_hash (qh_algorithms s))).
      { split; [auto|]. split; [auto|]. destruct S2 as [-> |[-> | ->]]; cbn; lia. }
      assert (IA : In (al_base_asym (qh_algorithms s)) [0x10; 0x80]%N) by (rewrite A1; simpl; auto).
      assert (SL : sig_len (al_base_asym (qh_algorithms s)) = Some 64) by (rewrite A1; reflexivity).
      destruct (built_facts B) as (_ & MS & _). assert (LM : 64 <= MAX_SIGNATURE_SIZE) by lia.
      cbn [req_dispatch]. split.
      + intros (p & t' & E). exists s. split; [auto|]. apply bind_panic in E as [E|(? & ? & _ & E)]; [|discriminate].
        rewrite ER in E. eapply (challenge_panic rsp); eauto.
      + intros (s' & [= <-] & HP). destruct (challenge_panics_run rsp HB HS HL s root (req_transcript R1) 64 W SO U IA SL LM HP) as (p & t' & E).
        exists p, t'. unfold bind. rewrite ER, E. reflexivity.
    - congruence. }
  rewrite <- X. split.
  - intros (p & E). destruct (req_dispatch _ _ _ _) as [[st'|e|q] t']; try discriminate. eauto.
  - intros (p & t' & E). rewrite E. cbn. eauto.
Qed.
(** next_request never panics during a session. *)
Theorem C47_next_never_panics root ev R fresh buf : built -> hash_contract -> req_session root ev R -> fresh_ok fresh ->
  forall p, fst (fst (requester_next_request R fresh buf)) <> Panic p.
Proof.
  intros B HC H FR p. pose proof (built_setting B HC) as HS. destruct (session_now root ev R HS H) as (st0 & ER & E0 & W & _ & NW & _).
  unfold requester_next_request. rewrite E0.
  destruct (match st0 with ReqNewSession => true | _ => false end) eqn:EE.
  { destruct st0; discriminate. }
  assert (N2 : st0 <> ReqNewSession). { intros ->. discriminate. }
  assert (N0 : st0 <> ReqError). { intros ->. exact NW. }
  set (cx := mkQCtx buf (req_transcript R) st0) in *.
  assert (X : fst (write_req st0 fresh cx) <> Panic p).
  { destruct (write_req_cases st0 fresh cx N0 N2 eq_refl) as [(out0 & st' & log' & HR)|[(e0 & E1 & E2)|[E1 NZ]]].
    - destruct (write_req_run st0 fresh cx out0 st' log' W eq_refl HR) as (base & E2 & [Q1 Q2] & E3).
      destruct (Nat.le_gt_cases (length out0) (length (q_buf cx))) as [L1|L1].
      + destruct (Nat.le_gt_cases (length (base ++ out0)) TRANSCRIPT_SIZE) as [L2|L2].
        * destruct (Q1 L1 L2) as (c' & X1 & _). rewrite X1. discriminate.
        * destruct (Q2 (or_intror L2)) as (c' & X1 & _). rewrite X1. discriminate.
      + destruct (Q2 (or_introl L1)) as (c' & X1 & _). rewrite X1. discriminate.
    - rewrite E1. discriminate.
    - destruct (built_facts B) as (A & _). lia. }
  destruct st0; try congruence; destruct (write_req _ fresh cx) as [r c]; exact X.
Qed.
End PropReqPanic.

(** * Panicking responses; no key is needed for any of them *)
Section Witness.
Context {cfg : Config} {cr : Crypto}.
(** A peer that answers a documented sequence of requests with these responses
    makes the requester panic at the last one. *)
Definition peer_panics (rsps : list (list N)) (last : list N) : Prop :=
  exists root ev R fresh buf out buf' R1 p,
    built /\ hash_contract /\ req_session root ev R /\ prompted ev /\ received ev = rsps /\ fresh_ok fresh /\
    requester_next_request R fresh buf = (Ok out, buf', R1) /\ bytes last /\ 2 < length last /\
    fst (requester_handle_msg R1 last) = Panic p.
Definition alternating (ev : list event) : Prop := exists l, ev = flat_map (fun p => [Sent (fst p); Got (snd p)]) l.
Lemma drive_alternating : forall rsps k R ev b R', drive k rsps R = Some (ev, b, R') -> alternating ev /\ received ev = rsps.
Proof.
  induction rsps as [|rsp rest IH]; intros k R ev b R' E; cbn [drive] in E.
  - injection E as <- <- <-. split; [now exists []|reflexivity].
  - destruct (requester_next_request R (repeat k 32) big_buf) as [[[out|e|p] buf'] R1]; try discriminate.
    destruct (requester_handle_msg R1 rsp) as [[b1|e|p] R2]; try discriminate.
    destruct (drive (k + 1) rest R2) as [[[ev1 b2] R3]|] eqn:E3; [|discriminate]. injection E as <- <- <-.
    destruct (IH _ _ _ _ _ E3) as [(l & ->) RE]. split; [now exists ((out, rsp) :: l)|]. 
    cbn [received flat_map app]. f_equal. exact RE.
Qed.
Lemma prompted_alternating ev : alternating ev -> prompted ev.
Proof.
  intros (l & ->). intros pre rsp post E.
  destruct (prompted_rounds l [] pre rsp (post ++ [Sent []])) as (pre' & o & X); [|eauto].
  rewrite E, <- app_assoc. reflexivity.
Qed.
Lemma peer_panics_intro root rsps last : built -> hash_contract ->
  forallb (forallb (fun x => (x <? 256)%N)) (last :: rsps) = true -> (length rsps <? 200) = true -> (2 <? length last) = true ->
  match drive 2 rsps (requester_new root) with
  | Some (_, _, R) =>
    match requester_next_request R (repeat 9%N 32) big_buf with
    | (Ok _, _, R1) => match fst (requester_handle_msg R1 last) with Panic _ => True | _ => False end
    | _ => False
    end
  | None => False
  end -> peer_panics rsps last.
Proof.
  intros B HC F L L2 H. destruct (drive 2 rsps (requester_new root)) as [[[ev b] R]|] eqn:ED; [|tauto].
  destruct (requester_next_request R (repeat 9%N 32) big_buf) as [[[out|e|p] buf'] R1] eqn:EN; try tauto.
  destruct (fst (requester_handle_msg R1 last)) as [x|e|p] eqn:EH; try tauto.
  cbn [forallb] in F. apply andb_true_iff in F as [F1 F2]. apply Nat.ltb_lt in L, L2.
  exists root, ev, R, (repeat 9%N 32), big_buf, out, buf', R1, p.
  destruct (drive_alternating _ _ _ _ _ _ ED) as [AL RE].
  apply (drive_session root _ _ _ [] _ _ _ (req_session_new _)) in ED.
  2: { apply Forall_forall. intros x I. rewrite forallb_forall in F2. now apply F2. }
  2: lia.
  repeat (split; [first [assumption|now apply prompted_alternating|now apply bytes_check]|]).
  split; [split; [reflexivity|apply bytes_repeat; reflexivity]|]. split; [exact EN|]. split; [now apply bytes_check|]. split; [lia|exact EH].
Qed.
End Witness.

Definition eight_cfg : Config :=
  Build_Config 8 1024 4 4096 64 64 16 2 8 1024 (@CAPABILITIES sample_cfg) (@SIGNING_ALGOS sample_cfg) true true.
Definition small_cfg : Config :=
  Build_Config 5 1024 4 4096 32 64 16 2 8 1024 (@CAPABILITIES sample_cfg) (@SIGNING_ALGOS sample_cfg) true true.
Lemma sample_built : @built sample_cfg sample_crypto.
Proof. exists sample_toml. reflexivity. Qed.
Lemma eight_built : @built eight_cfg sample_crypto.
Proof.
  exists (mkSpdmConfig 8 1024 4 4096 (@CAPABILITIES sample_cfg) 64 (@SIGNING_ALGOS sample_cfg) 8 1024 2 16). reflexivity.
Qed.
Lemma small_built : @built small_cfg sample_crypto.
Proof.
  exists (mkSpdmConfig 5 1024 4 4096 (@CAPABILITIES sample_cfg) 32 (@SIGNING_ALGOS sample_cfg) 8 1024 2 16). reflexivity.
Qed.
Lemma toy_contract : @hash_contract sample_crypto.
Proof. exact (proj2 (proj2 sample_req_setting)). Qed.

#[local] Existing Instance sample_crypto.
(** CHALLENGE_AUTH for [slot] in [mask], with certificate hash [h], opaque data
    [od] and signature [sig]. *)
Definition crafted_auth (slot mask : N) (h od sig : list N) : list N :=
  [0x11; 0x03; slot; mask]%N ++ h ++ repeat 1%N 32 ++ repeat 0%N 32 ++ [4; 0]%N ++ od ++ sig.
Definition no_opaque : list N := [0; 0; 0; 0]%N.
Definition good_hash : list N := toy_hash 1 (skipn 8 (sample_response 4)).
Theorem C47_refuted_opaque_elements : @peer_panics sample_cfg sample_crypto (firstn 5 sample_responses)
  (crafted_auth 0 1 good_hash ([3; 0; 0; 0] ++ concat (repeat [0; 0; 0; 0] 3))%N (repeat 1%N 64)).
Proof. apply (peer_panics_intro [1; 2; 3]%N); [exact sample_built|exact toy_contract|vm_compute; reflexivity..|vm_compute; exact I]. Qed.
Theorem C47_refuted_opaque_size : @peer_panics sample_cfg sample_crypto (firstn 5 sample_responses)
  (crafted_auth 0 1 good_hash ([1; 0; 0; 0] ++ [0; 0; 17; 0] ++ repeat 0 20)%N (repeat 1%N 64)).
Proof. apply (peer_panics_intro [1; 2; 3]%N); [exact sample_built|exact toy_contract|vm_compute; reflexivity..|vm_compute; exact I]. Qed.
(** The chain is anybody's valid chain; half of the signature is zero. *)
Theorem C47_refuted_zero_signature : @peer_panics sample_cfg sample_crypto (firstn 5 sample_responses)
  (crafted_auth 0 1 good_hash no_opaque (repeat 1 32 ++ repeat 0 32)%N).
Proof. apply (peer_panics_intro [1; 2; 3]%N); [exact sample_built|exact toy_contract|vm_compute; reflexivity..|vm_compute; exact I]. Qed.
(** A "chain" whose first certificate has tag 0x31. *)
Definition bad_tag_chain : list N := [38; 0; 0; 0]%N ++ repeat 5%N 32 ++ [0x31; 0]%N.
Theorem C47_refuted_bad_tag : @peer_panics sample_cfg sample_crypto
  (firstn 4 sample_responses ++ [[0x11; 0x02]%N ++ certificate_layout 0 bad_tag_chain 0])
  (crafted_auth 0 1 (toy_hash 1 bad_tag_chain) no_opaque (repeat 1%N 64)).
Proof. apply (peer_panics_intro [1; 2; 3]%N); [exact sample_built|exact toy_contract|vm_compute; reflexivity..|vm_compute; exact I]. Qed.
(** Eight slots, debug build: the certificate is sent as that of slot 8. *)
Theorem C47_refuted_slot_8 : @peer_panics eight_cfg sample_crypto
  (firstn 4 sample_responses ++ [[0x11; 0x02]%N ++ certificate_layout 8 [] 0])
  (crafted_auth 8 1 good_hash no_opaque (repeat 1%N 64)).
Proof. apply (peer_panics_intro [1; 2; 3]%N); [exact eight_built|exact toy_contract|vm_compute; reflexivity..|vm_compute; exact I]. Qed.
(** A build with 32 byte digests still offers SHA-512. *)
Definition sha512_algorithms : list N := firstn 16 (sample_response 2) ++ [4]%N ++ skipn 17 (sample_response 2).
Theorem C47_refuted_small_digests : @peer_panics small_cfg sample_crypto
  (firstn 2 sample_responses ++ [sha512_algorithms]) [0x11; 0x01; 0; 0]%N.
Proof. apply (peer_panics_intro [1; 2; 3]%N); [exact small_built|exact toy_contract|vm_compute; reflexivity..|vm_compute; exact I]. Qed.

(** The hypotheses of C47_panic_iff hold of the sample run at every step. *)
Example C47_example : @built sample_cfg sample_crypto /\ @hash_contract sample_crypto /\ 64 <= @MAX_DIGEST_SIZE sample_cfg /\
  forall n, n <= 6 -> @req_session sample_cfg sample_crypto [1; 2; 3]%N (driven_ev n) (driven_R n).
Proof. refine (conj sample_built (conj toy_contract (conj _ driven_session))). apply Nat.leb_le. reflexivity. Qed.
