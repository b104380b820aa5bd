(** C61: a build without a crypto provider, and the dummy implementations of
    src/crypto/no_crypto_defaults.rs. *)
From Verif Require Import Base BaseLemmas Config ConfigBuild Encoding MsgCommon MsgVersion MsgCapabilities MsgAlgorithms MsgDigest
     MsgCertificates MsgChallenge MsgError Transcript Crypto Responder Requester SpecWire SpecMsgs SpecResponder SpecRequester SpecSlots
     FlagLemmas PropTools PropTranscript RspParts RspStep RspPanic ReqStep ReqMsg PropRequester PropReqState PropReqLimits ReqPanic PropReqPanic PropSlots
     Sample SampleRun SampleReq.

Section Requester.
Context {cfg : Config} {cr : Crypto}.
(** What holds of a requester's state as long as it never announced a capability. *)
Definition no_auth (st : ReqStates) : Prop :=
  match st with
  | ReqCapabilities s => qc_requester_cap s = None \/ qc_requester_cap s = Some 0%N
  | ReqAlgorithms s => qa_requester_cap s = 0%N
  | ReqIdAuth _ | ReqChallenge _ => False
  | _ => True
  end.
Hypothesis HC : CAPABILITIES = [].
Lemma dispatch_no_auth st root rsp t st' t' : no_auth st -> req_dispatch st root rsp t = (Ok st', t') -> no_auth st'.
Proof.
  intros NA H. destruct st as [| |s|s|s|s|]; try contradiction; cbn [req_dispatch] in H; try discriminate.
  - apply bind_inv in H as (s & t1 & X & H). injection H as <- <-. unfold req_version_handle_msg in X.
    do 4 (apply bind_inv in X as (? & ? & _ & X)). match type of X with (match ?o with _ => _ end) _ = _ => destruct o; [|discriminate] end. apply bind_inv in X as (? & ? & _ & X). injection X as <- <-. left. reflexivity.
  - apply bind_inv in H as (s' & t1 & X & H). injection H as <- <-. unfold req_cap_handle_msg in X.
    do 4 (apply bind_inv in X as (? & ? & _ & X)). apply lift_inv in X as [X _]. unfold req_alg_from in X.
    cbn [qc_requester_ct qc_requester_cap qc_responder_ct qc_responder_cap] in X. cbn [no_auth] in *.
    destruct (qc_requester_ct s); [|discriminate]. destruct NA as [E|E]; rewrite E in X; [discriminate|]. injection X as <-. reflexivity.
  - apply bind_inv in H as (s' & t1 & X & H). unfold req_alg_handle_msg in X. do 5 (apply bind_inv in X as (? & ? & _ & X)). injection X as <- <-.
    cbn [qa_requester_cap] in H. cbn [no_auth] in NA. rewrite NA in H. change (contains 0 ReqFlags_CERT_CAP) with false in H. cbn [andb] in H.
    injection H as <- <-. exact I.
Qed.
Definition keeps {A} (m : Q A) : Prop := forall c, no_auth (q_state c) -> no_auth (q_state (snd (m c))).
Lemma keeps_bind {A B} (m : Q A) (f : A -> Q B) : keeps m -> (forall a, keeps (f a)) -> keeps (bind m f).
Proof. intros Hm Hf c H. unfold bind. specialize (Hm c H). destruct (m c) as [[a|e|p] c']; cbn [snd] in *; auto. now apply Hf. Qed.
Lemma keeps_lift {A} (r : res RequesterError A) : keeps (lift r). Proof. intros c H. exact H. Qed.
Lemma keeps_ret {A} (a : A) : keeps (ret a). Proof. intros c H. exact H. Qed.
Lemma keeps_pnc {A} p : keeps (A := A) (pnc p). Proof. intros c H. exact H. Qed.
Lemma keeps_extend bs : keeps (q_extend bs).
Proof. intros c H. unfold q_extend. destruct (map_err req_of_full (t_extend bs) (q_tr c)). exact H. Qed.
Lemma keeps_clear : keeps q_clear. Proof. intros c H. exact H. Qed.
Lemma keeps_prefix n : keeps (q_prefix n). Proof. intros c H. unfold q_prefix. destruct (n <=? length (q_buf c)); exact H. Qed.
Lemma keeps_write {E} (f : E -> RequesterError) w : keeps (q_write f w). Proof. intros c H. unfold q_write. destruct (w (q_buf c)). exact H. Qed.
Lemma keeps_set s : no_auth s -> keeps (q_set s). Proof. intros N c H. exact N. Qed.
#[local] Hint Resolve keeps_lift keeps_ret keeps_pnc keeps_extend keeps_clear keeps_prefix keeps_write keeps_bind : keeps.
Lemma write_no_auth st fresh c : no_auth st -> q_state c = st -> no_auth (q_state (snd (write_req st fresh c))).
Proof.
  intros NA EC. assert (NC : no_auth (q_state c)) by (now rewrite EC). destruct st as [| |s|s|s|s|]; try contradiction; cbn [write_req].
  - exact NC.
  - assert (K : keeps write_get_version) by (unfold write_get_version; eauto 10 with keeps). apply K, NC.
  - assert (K : keeps (cap_write_msg s)).
    { unfold cap_write_msg, config_to_get_capabilities_msg. rewrite HC. cbn [flags_of_strings]. intros d ND. change (rmap (mkGetCapabilities 12) (Ok (E := RequesterError) 0%N)) with (Ok (E := RequesterError) (mkGetCapabilities 12 0)).
      unfold bind at 1, lift. cbn [gc_ct_exponent gc_flags]. revert d ND.
      refine (keeps_bind _ _ _ (fun _ => keeps_bind _ _ _ (fun _ => keeps_bind _ _ _ (fun _ => keeps_bind _ _ (keeps_set _ _) _)))); auto with keeps.
      right. reflexivity. }
    apply K, NC.
  - assert (K : keeps (alg_write_msg s)).
    { unfold alg_write_msg. apply keeps_bind; [auto with keeps|]. intros msg. apply keeps_bind; [auto with keeps|]. intros size.
      apply keeps_bind; [apply keeps_set; exact NA|]. eauto with keeps. }
    apply K, NC.
  - exact NC.
Qed.
Lemma reached_no_auth root R : req_reached root R -> match req_state R with Some st => no_auth st | None => True end.
Proof.
  intros (calls & _ & ->). assert (H0 : match req_state (requester_new root) with Some st => no_auth st | None => True end) by exact I.
  revert H0. generalize (requester_new root). unfold req_after. induction calls as [|c calls IH]; intros R H0; [exact H0|]. cbn [fold_left]. apply IH. clear IH.
  destruct c as [fresh buf|rsp]; cbn [req_after_call].
  - unfold requester_next_request. destruct (req_state R) as [st|] eqn:ES; [|now rewrite ES].
    assert (X := write_no_auth st fresh (mkQCtx buf (req_transcript R) st) H0 eq_refl). destruct (write_req st fresh (mkQCtx buf (req_transcript R) st)) as [r c].
    destruct st; cbn [req_state snd] in *; try exact X. now rewrite ES.
  - unfold requester_handle_msg. destruct (req_state R) as [st|] eqn:ES; [|now rewrite ES].
    destruct (req_dispatch st (req_root R) rsp (req_transcript R)) as [[st'|e|p] t'] eqn:ED; cbn [req_state]; try exact I. exact (dispatch_no_auth _ _ _ _ _ _ H0 ED).
Qed.
End Requester.

Section NoCrypto.
Context {cfg : Config} {cr : Crypto}.
(** No history makes the requester of a build without capabilities wait for
    DIGESTS, CERTIFICATE or CHALLENGE_AUTH, the only messages it uses cryptography for. *)
Theorem C61_requester_states root R : built -> provider = ProviderNone -> req_reached root R ->
  match req_state R with Some (ReqIdAuth _) | Some (ReqChallenge _) => False | _ => True end.
Proof.
  intros B PN HR. destruct (built_facts B) as (_ & _ & _ & HC). pose proof (reached_no_auth (HC PN) root R HR) as H.
  destruct (req_state R) as [[| | | | | |]|]; auto.
Qed.
End NoCrypto.

(** The oracles of a provider that is not there do not matter. *)
Definition dummy_crypto : Crypto :=
  {| provider := ProviderNone; sha := fun h _ => zeros (hash_len h); webpki_cert_ok := fun _ => false; webpki_anchor_ok := fun _ => false;
     webpki_chain_ok := fun _ _ _ _ _ => false; webpki_sig_ok := fun _ _ _ _ => false |}.
Lemma dummy_handle (cfg : Config) (cr : Crypto) R rsp : provider = ProviderNone ->
  @requester_handle_msg cfg cr R rsp = @requester_handle_msg cfg dummy_crypto R rsp.
Proof. destruct cr as [p sh a b c d]. intros E. cbn in E. subst p. reflexivity. Qed.
Lemma dummy_next (cfg : Config) (cr : Crypto) R fresh buf : provider = ProviderNone ->
  @requester_next_request cfg cr R fresh buf = @requester_next_request cfg dummy_crypto R fresh buf.
Proof. destruct cr as [p sh a b c d]. intros E. cbn in E. subst p. reflexivity. Qed.
Lemma dummy_session (cfg : Config) (cr : Crypto) root ev R : provider = ProviderNone ->
  @req_session cfg cr root ev R -> @req_session cfg dummy_crypto root ev R.
Proof.
  intros P. induction 1 as [|ev R fresh buf out buf' R' H IH F E|ev R fresh buf e buf' R' H IH F E|ev R rsp b R' H IH B E].
  - constructor.
  - rewrite dummy_next in E by exact P. eapply req_session_sent; eauto.
  - rewrite dummy_next in E by exact P. eapply req_session_failed; eauto.
  - rewrite dummy_handle in E by exact P. eapply req_session_got; eauto.
Qed.
Lemma dummy_contract (cfg : Config) : @hash_contract dummy_crypto.
Proof. intros h data _. cbn. split; [apply repeat_length|]. unfold zeros. apply Forall_forall. intros x I. apply repeat_spec in I. subst. reflexivity. Qed.
Lemma req_session_reached_ (cfg : Config) (cr : Crypto) root ev R : req_session root ev R -> req_reached root R.
Proof.
  assert (S : forall R c, req_reached root R -> req_call_ok c -> req_reached root (req_after_call R c)).
  { intros R0 c (calls & F & ->) HC. exists (calls ++ [c]). split; [apply Forall_app; auto|]. unfold req_after. rewrite fold_left_app. reflexivity. }
  induction 1 as [|ev R fresh buf out buf' R' H IH F E|ev R fresh buf e buf' R' H IH F E|ev R rsp b R' H IH B E].
  - exists []. split; [constructor|reflexivity].
  - pose proof (S R (CallNext fresh buf) IH F) as X. cbn in X. now rewrite E in X.
  - pose proof (S R (CallNext fresh buf) IH F) as X. cbn in X. now rewrite E in X.
  - pose proof (S R (CallMsg rsp) IH B) as X. cbn in X. now rewrite E in X.
Qed.

Section NoPanic.
Context {cfg : Config} {cr : Crypto}.
(** A session before the certificate exchange: no panic. *)
Lemma early_no_panic root ev R fresh buf out buf' R1 rsp : built -> hash_contract ->
  req_session root ev R -> fresh_ok fresh -> requester_next_request R fresh buf = (Ok out, buf', R1) ->
  bytes rsp -> 2 < length rsp -> match req_state R1 with Some (ReqIdAuth _) | Some (ReqChallenge _) => False | _ => True end ->
  forall p, fst (requester_handle_msg R1 rsp) <> Panic p.
Proof.
  intros B HC H FR EN HB HL NA p. pose proof (built_setting B HC) as HS. destruct (session_now root ev R HS H) as (st & NW).
  destruct (now_sent root ev R st fresh buf out buf' R1 NW FR EN) as (st1 & (ER & ES & W & SO & NW1 & _) & NN).
  assert (LAST : forall ev0 m, told_version ev0 m -> m <> ev ++ [Sent out]).
  { intros ev0 m [n m' es _ _ _ _ _] E. apply app_inj_tail in E as [_ E]. discriminate. }
  assert (LAST2 : forall v own ct fl m, told_capabilities v own ct fl m -> m <> ev ++ [Sent out]).
  { intros v own ct fl m [ev0 n m' _ _ _ _ _ _] E. rewrite app_assoc in E. apply app_inj_tail in E as [_ E]. discriminate. }
  unfold requester_handle_msg. rewrite ES in *.
  assert (X : forall p t', req_dispatch st1 (req_root R1) rsp (req_transcript R1) = (Panic p, t') -> False).
  { clear p. intros p t' E. destruct st1 as [| |s|s|s|s|]; cbn [req_now] in NW1; cbn [req_dispatch] in E; try contradiction; try congruence.
    - apply bind_panic in E as [E|(s & t1 & _ & E)]; [|discriminate]. eapply version_panic; eauto.
    - apply bind_panic in E as [E|(s' & t1 & _ & E)]; [|discriminate].
      destruct NW1 as (ev0 & n & own & T & EV & _ & _ & [(-> & _)|(_ & _ & Q1 & Q2)]).
      + rewrite app_nil_r in EV. symmetry in EV. exact (LAST _ _ T EV).
      + eapply (capabilities_panic rsp); eauto; congruence.
    - apply bind_panic in E as [E|(s' & t1 & Y & E)].
      + destruct NW1 as (ev0 & n & na & T & EV & _ & _ & [(-> & _)|(_ & Q)]).
        * rewrite app_nil_r in EV. symmetry in EV. exact (LAST2 _ _ _ _ _ T EV).
        * eapply (algorithms_panic rsp); eauto; congruence.
      + destruct (_ && _); [|discriminate]. apply bind_panic in E as [E|(? & ? & _ & E)]; [|discriminate].
        apply lift_panic in E. unfold req_id_from in E. unfold req_alg_handle_msg in Y.
        do 5 (apply bind_inv in Y as (? & ? & _ & Y)). injection Y as <- <-. discriminate. }
  destruct (req_dispatch st1 (req_root R1) rsp (req_transcript R1)) as [[st'|e|q] t'] eqn:E; try discriminate. exfalso. eauto.
Qed.
End NoPanic.

(** In a build without a crypto provider the requester never panics when used
    as documented: not in next_request, nor in handle_msg on any response longer
    than a header. *)
Theorem C61_requester_never_panics (cfg : Config) (cr : Crypto) root ev R fresh buf : built -> provider = ProviderNone ->
  req_session root ev R -> fresh_ok fresh ->
  (forall p, fst (fst (requester_next_request R fresh buf)) <> Panic p) /\
  forall out buf' R1 rsp, requester_next_request R fresh buf = (Ok out, buf', R1) -> bytes rsp -> 2 < length rsp ->
    forall p, fst (requester_handle_msg R1 rsp) <> Panic p.
Proof.
  intros B PN H F. assert (B' : @built cfg dummy_crypto). { unfold built in *. cbn. now rewrite PN in B. }
  pose proof (dummy_session cfg cr root ev R PN H) as H'. split.
  - intros p. rewrite dummy_next by exact PN. eapply (@C47_next_never_panics cfg dummy_crypto); eauto using dummy_contract.
  - intros out buf' R1 rsp E HB HL p. rewrite dummy_next in E by exact PN. rewrite dummy_handle by exact PN.
    eapply (@early_no_panic cfg dummy_crypto); eauto using dummy_contract.
    apply (@C61_requester_states cfg dummy_crypto root R1 B' eq_refl). eapply req_session_reached_. eapply req_session_sent; eauto.
Qed.

(** The responder consults cryptography only about filled slots: without one its
    behaviour in any history is the same whatever the crypto provider. *)
Section Responder.
Context {cfg : Config}.
Variable slots : list (option FilledSlot).
Hypothesis HE : forall i, ~ filled slots i.
Lemma no_chain cs i : cs = map (option_map fs_chain) slots -> nth_error cs i = None \/ nth_error cs i = Some None.
Proof.
  intros ->. rewrite nth_error_map. specialize (HE i). unfold filled in HE. destruct (nth_error slots i) as [[s|]|]; [exfalso; eauto|right|left]; reflexivity.
Qed.
Lemma no_hash (cr : Crypto) algo buf : hash_cert_chains algo (map (option_map fs_chain) slots) buf = Ok (map (fun _ => None) slots).
Proof.
  clear -HE. revert HE. induction slots as [|x l IH]; intros H; [reflexivity|]. cbn [map hash_cert_chains].
  destruct x as [s|]; [exfalso; apply (H 0); exists s; reflexivity|]. cbn [option_map]. rewrite IH; [reflexivity|]. intros i F. exact (H (S i) F).
Qed.
Lemma dispatch_no_slots (cr cr' : Crypto) st rnd req c : @rsp_dispatch cfg cr st slots rnd req c = @rsp_dispatch cfg cr' st slots rnd req c.
Proof.
  destruct st as [| | | |s|s]; try reflexivity; cbn [rsp_dispatch].
  - unfold id_auth_handle_msg. apply reset_same. intros _. apply bind_ext. intros [|] c1 _; [|reflexivity].
    unfold handle_get_digests. rewrite !no_hash. reflexivity.
  - unfold challenge_handle_msg. apply reset_same. intros _. apply bind_ext. intros u c0 _. cbv zeta. apply bind_ext. intros ds c2 _. apply bind_ext. intros ss c3 _.
    apply bind_ext. intros body c4 _. apply bind_ext. intros m c5 _.
    assert (E : slot_get slots (ch_slot m) = None).
    { unfold slot_get. destruct (nth_error slots (N.to_nat (ch_slot m))) as [[x|]|] eqn:E; try reflexivity. exfalso. apply (HE (N.to_nat (ch_slot m))). exists x. exact E. }
    rewrite E. reflexivity.
Qed.
Lemma run_no_slots (cr cr' : Crypto) calls : forall R, rsp_slots R = slots ->
  @observed cfg cr R calls = @observed cfg cr' R calls /\ @after cfg cr R calls = @after cfg cr' R calls.
Proof.
  induction calls as [|[rnd req rsp|] calls IH]; intros R ER; [split; reflexivity| |]; unfold after; cbn [observed fold_left after_call].
  - assert (E : @responder_handle_msg cfg cr R rnd req rsp = @responder_handle_msg cfg cr' R rnd req rsp).
    { unfold responder_handle_msg. destruct (rsp_state R); [|reflexivity]. rewrite ER, (dispatch_no_slots cr cr'). reflexivity. }
    rewrite E. destruct (@responder_handle_msg cfg cr' R rnd req rsp) as [[a b] R'] eqn:E'. assert (E2 : rsp_slots R' = slots).
    { unfold responder_handle_msg in E'. destruct (rsp_state R); [|congruence]. destruct (rsp_dispatch _ _ _ _ _) as [r0 c0].
      destruct (rsp_finish r0 (c_rsp c0)) as [[x y] z]. injection E' as _ _ <-. exact ER. }
    destruct (IH R' E2) as [A B]. split; [f_equal; exact A|exact B].
  - apply IH. exact ER.
Qed.
(** Proved for a responder without filled slots. *)
Theorem C61_responder_partial (cr cr' : Crypto) calls :
  @observed cfg cr (responder_new slots) calls = @observed cfg cr' (responder_new slots) calls /\
  @after cfg cr (responder_new slots) calls = @after cfg cr' (responder_new slots) calls.
Proof. apply run_no_slots. reflexivity. Qed.
End Responder.

(** Not true with filled slots: build.rs forces a build without a provider to
    announce no capability, but the responder answers requests it has announced
    no capability for, so GET_DIGESTS reaches the dummy and panics. *)
Definition nocrypto_cfg : Config := Eval vm_compute in
  match gen_config false true false (mkSpdmConfig 5 1024 4 4096 [] 64 ["ECDSA_ECC_NIST_P256"%string] 8 1024 2 16) with Ok c => c | _ => sample_cfg end.
#[local] Existing Instance nocrypto_cfg.
#[local] Existing Instance dummy_crypto.
Definition bare_negotiation : list (list N) := [[0x10; 0x84; 0; 0]; [0x11; 0xE1; 0; 0; 0; 12; 0; 0; 0; 0; 0; 0]; firstn 2 (sample_request 2) ++ skipn 2 (sample_request 2)]%N.
Definition bare_calls : list call := map (fun req => CallHandle (sample_rnd 1) req big_buf) (bare_negotiation ++ [[0x11; 0x81; 0; 0]]%N).
Theorem C61_responder_refuted : built /\ Forall call_ok bare_calls /\
  nth 3 (map fst (observed (responder_new sample_slots) bare_calls)) (Replied [] (Ok tt)) = Panicked PUnimplemented.
Proof.
  split. { exists (mkSpdmConfig 5 1024 4 4096 [] 64 ["ECDSA_ECC_NIST_P256"%string] 8 1024 2 16). vm_compute. reflexivity. }
  split. { repeat apply Forall_cons; try apply Forall_nil; (split; [apply bytes_check; vm_compute; reflexivity|split; [reflexivity|apply bytes_check; vm_compute; reflexivity]]). }
  vm_compute. reflexivity.
Qed.
(** With empty slots the same calls are all answered. *)
Example C61_responder_example : (forall i, ~ filled (repeat None 5) i) /\
  map (fun x => match fst x with Replied out (Ok tt) => length out | _ => 0 end) (observed (responder_new (repeat None 5)) bare_calls) = [10; 12; 52; 4].
Proof.
  split; [|vm_compute; reflexivity]. intros i [s H]. do 5 (destruct i as [|i]; [discriminate|]). destruct i; discriminate.
Qed.
(** A requester of that build completes its session without authentication. *)
Definition bare_responses : list (list N) := Eval vm_compute in
  map (fun x => match fst x with Replied out _ => out | Panicked _ => [] end) (firstn 3 (observed (responder_new (repeat None 5)) bare_calls)).
Example C61_requester_example : built /\ provider = ProviderNone /\
  (exists ev R, req_session [1; 2; 3]%N ev R /\ length ev = 4 /\ option_map req_state_name (req_state R) = Some "Algorithms"%string) /\
  exists ev R, req_session [1; 2; 3]%N ev R /\ length ev = 6 /\ option_map req_state_name (req_state R) = Some "NewSession"%string.
Proof.
  split. { exists (mkSpdmConfig 5 1024 4 4096 [] 64 ["ECDSA_ECC_NIST_P256"%string] 8 1024 2 16). vm_compute. reflexivity. }
  split; [reflexivity|]. split.
  - destruct (drive 2 (firstn 2 bare_responses) (requester_new [1; 2; 3]%N)) as [[[ev b] R]|] eqn:E; [|vm_compute in E; discriminate E].
    exists ev, R. split; [|vm_compute in E; injection E as <- _ <-; split; reflexivity]. change ev with ([] ++ ev).
    eapply (drive_session [1; 2; 3]%N (firstn 2 bare_responses) 2 (requester_new [1; 2; 3]%N) [] ev b R); [constructor| |reflexivity|exact E]. repeat constructor.
  - destruct (drive 2 bare_responses (requester_new [1; 2; 3]%N)) as [[[ev b] R]|] eqn:E; [|vm_compute in E; discriminate E].
    exists ev, R. split; [|vm_compute in E; injection E as <- _ <-; split; reflexivity]. change ev with ([] ++ ev).
    eapply (drive_session [1; 2; 3]%N bare_responses 2 (requester_new [1; 2; 3]%N) [] ev b R); [constructor| |reflexivity|exact E]. repeat constructor.
Qed.
