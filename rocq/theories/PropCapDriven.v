(** C70: announced capabilities govern what is exchanged. *)
From Verif Require Import Base BaseLemmas Config ConfigBuild Encoding MsgCommon MsgVersion MsgCapabilities MsgAlgorithms MsgDigest
     MsgCertificates MsgChallenge MsgError Transcript Crypto Responder Requester SpecWire SpecMsgs SpecResponder SpecRequester SpecAgree
     FlagLemmas PropTools RspParts PropResponder PropRspState PropRequester PropReqState PropAgree PropTables PropConfigText Sample SampleRun SampleReq.

#[local] Opaque chain_bytes.
Section Props.
Context {cfg : Config} {cr : Crypto}.

(** The capabilities both sides announced in this session. *)
Definition announced (ev : list event) (own flags : N) : Prop :=
  flags_named ReqFlags_from_str CAPABILITIES own /\ In (Sent (capabilities_msg own)) ev /\
  exists m ct, In (Got m) ev /\ starts_with ([0x11; 0x61]%N ++ capabilities_layout ct flags) m.

Definition vca (ev : list event) : Prop := forall m, In (Sent m) ev -> In (code m) [0x84; 0xE1; 0xE3]%N.
Lemma vca_app a b : vca a -> vca b -> vca (a ++ b).
Proof. intros A B m I. apply in_app_or in I as [I|I]; auto. Qed.
Lemma vca_asks n q : In (code q) [0x84; 0xE1; 0xE3]%N -> vca (asks n q).
Proof. intros C m I. apply repeat_spec in I. injection I as ->. exact C. Qed.
Lemma vca_got m : vca [Got m].
Proof. intros x [E|[]]. discriminate E. Qed.
Lemma vca_version v ev : told_version v ev -> vca ev.
Proof. intros [n m es _ _ _ _ _]. apply vca_app; [apply vca_asks; left; reflexivity|apply vca_got]. Qed.
Lemma vca_capabilities v own ct fl ev : told_capabilities v own ct fl ev -> vca ev.
Proof.
  intros [ev0 n m T _ _ _ _ _]. apply vca_app; [eapply vca_version; eauto|]. apply vca_app; [apply vca_asks; right; left; reflexivity|apply vca_got].
Qed.
Lemma vca_algorithms v own ct fl al ev : told_algorithms v own ct fl al ev -> vca ev.
Proof.
  intros [ev0 n m na fs body T _ _ _ _ _ _ _]. apply vca_app; [eapply vca_capabilities; eauto|].
  apply vca_app; [apply vca_asks; right; right; left; reflexivity|apply vca_got].
Qed.
Lemma announced_more ev more own fl : announced ev own fl -> announced (ev ++ more) own fl.
Proof.
  intros (F & S & m & ct & G & SW). split; [exact F|]. split; [apply in_or_app; auto|]. exists m, ct. split; [apply in_or_app; auto|exact SW].
Qed.
Lemma announced_capabilities v own ct fl ev : told_capabilities v own ct fl ev -> announced ev own fl.
Proof.
  intros [ev0 n m T F L SW _ _]. split; [exact F|]. split.
  - apply in_or_app. right. apply in_or_app. left. destruct n; [lia|]. left. reflexivity.
  - exists m, ct. split; [|exact SW]. apply in_or_app. right. apply in_or_app. right. left. reflexivity.
Qed.
Lemma announced_algorithms v own ct fl al ev : told_algorithms v own ct fl al ev -> announced ev own fl.
Proof. intros [ev0 n m na fs body T _ _ _ _ _ _ _]. apply announced_more. eapply announced_capabilities; eauto. Qed.

(** The requests sent were all VCA; or CERT_CAP was announced by both. *)
Definition governed (ev : list event) : Prop :=
  vca ev \/ exists own fl, announced ev own fl /\ both cert_bit own fl = true /\
    ((forall m, In (Sent m) ev -> code m <> 0x83%N) \/ both chal_bit own fl = true).
Lemma gov_digests v own ct fl al d ev : told_digests v own ct fl al d ev ->
  announced ev own fl /\ both cert_bit own fl = true /\ (forall m, In (Sent m) ev -> code m <> 0x83%N).
Proof.
  intros [ev0 n m T B _ _ _]. split; [apply announced_more; eapply announced_algorithms; eauto|]. split; [exact B|].
  intros x I. apply in_app_or in I as [I|I].
  - apply (vca_algorithms _ _ _ _ _ _ T) in I. intros E. rewrite E in I. cbn in I. intuition discriminate.
  - apply in_app_or in I as [I|[I|[]]]; [|discriminate I]. apply repeat_spec in I. injection I as ->. discriminate.
Qed.
Lemma gov_certificate v own ct fl al d slot portion ev : told_certificate v own ct fl al d slot portion ev ->
  announced ev own fl /\ both cert_bit own fl = true /\ (forall m, In (Sent m) ev -> code m <> 0x83%N).
Proof.
  intros [ev0 n m r T _ _ _]. destruct (gov_digests _ _ _ _ _ _ _ T) as (A & B & C). split; [now apply announced_more|]. split; [exact B|].
  intros x I. apply in_app_or in I as [I|I]; [now apply C|].
  apply in_app_or in I as [I|[I|[]]]; [|discriminate I]. apply repeat_spec in I. injection I as ->. discriminate.
Qed.
Lemma no_challenge_asks ev n q : (forall m, In (Sent m) ev -> code m <> 0x83%N) -> code q <> 0x83%N ->
  forall m, In (Sent m) (ev ++ asks n q) -> code m <> 0x83%N.
Proof. intros H Q m I. apply in_app_or in I as [I|I]; [auto|]. apply repeat_spec in I. now injection I as ->. Qed.
Lemma session_governed root ev R : req_setting -> req_session root ev R -> governed ev.
Proof.
  intros HS H. destruct (C36_session_grammar root ev R HS H) as (st & _ & NW).
  destruct st as [| |s|s|s|s|]; cbn [req_now] in NW.
  - contradiction.
  - destruct NW as (n & ->). left. apply vca_asks. left. reflexivity.
  - destruct NW as (ev0 & n & own & T & -> & _). left. apply vca_app; [eapply vca_version; eauto|]. apply vca_asks. right. left. reflexivity.
  - destruct NW as (ev0 & n & na & T & -> & _). left. apply vca_app; [eapply vca_capabilities; eauto|]. apply vca_asks. right. right. left. reflexivity.
  - destruct NW as (NW & _ & _ & BC). right. destruct (qi_digests s); destruct NW as (ev0 & n & T & ->).
    + destruct (gov_digests _ _ _ _ _ _ _ T) as (A & B & C). eexists _, _. split; [apply announced_more; exact A|]. split; [exact B|].
      left. apply no_challenge_asks; [exact C|discriminate].
    + eexists _, _. split; [apply announced_more; eapply announced_algorithms; eauto|]. split; [exact BC|].
      left. apply no_challenge_asks; [|discriminate]. intros m I E. apply (vca_algorithms _ _ _ _ _ _ T) in I. rewrite E in I. cbn in I. intuition discriminate.
  - destruct NW as (ev0 & nonces & d & T & -> & _ & _ & BC). right. destruct (gov_certificate _ _ _ _ _ _ _ _ _ T) as (A & B & _).
    eexists _, _. split; [apply announced_more; exact A|]. auto.
  - destruct NW as (v & own & ct & fl & al & [[_ T]|[(_ & d & slot & portion & T)|(d & slot & portion & ev0 & nonces & rsp & ss & BC & T & _ & -> & _)]]).
    + left. eapply vca_algorithms; eauto.
    + right. destruct (gov_certificate _ _ _ _ _ _ _ _ _ T) as (A & B & C). exists own, fl. auto.
    + right. destruct (gov_certificate _ _ _ _ _ _ _ _ _ T) as (A & B & _). exists own, fl. split; [apply announced_more; exact A|]. auto.
Qed.

(** The requester sends GET_DIGESTS and GET_CERTIFICATE only when it and the peer
    announced CERT_CAP, and CHALLENGE only when both announced CERT_CAP and CHAL_CAP. *)
Theorem C70_requester_partial root ev R m : req_setting -> req_session root ev R -> In (Sent m) ev ->
  In (code m) [0x84; 0xE1; 0xE3]%N \/
  exists own fl, announced ev own fl /\ both cert_bit own fl = true /\ (code m = 0x83%N -> both chal_bit own fl = true).
Proof.
  intros HS H I. destruct (session_governed root ev R HS H) as [V|(own & fl & A & B & [C|C])]; [left; auto|right..]; exists own, fl; repeat split; auto; try apply A.
  intros E. destruct (C m I E).
Qed.
Lemma req_cert_name s x : ReqFlags_from_str s = Some x -> N.testbit x cert_bit = true -> s = "CERT_CAP"%string.
Proof.
  unfold ReqFlags_from_str, ReqFlags_table. cbn [str_lookup].
  repeat match goal with |- context[String.eqb ?a s] => destruct (String.eqb_spec a s) | |- context[String.eqb s ?a] => destruct (String.eqb_spec s a) end;
    intros [= <-]; intros T; try (vm_compute in T; discriminate T); auto.
Qed.
(** A requester configured without CERT_CAP exchanges VERSION, CAPABILITIES and
    ALGORITHMS only. *)
Theorem C70_vca_only_partial root ev R : req_setting -> req_session root ev R -> ~ In "CERT_CAP"%string CAPABILITIES ->
  forall m, In (Sent m) ev -> In (code m) [0x84; 0xE1; 0xE3]%N.
Proof.
  intros HS H NC m I. destruct (C70_requester_partial root ev R m HS H I) as [V|(own & fl & (FN & _) & B & _)]; [exact V|exfalso].
  unfold both in B. apply andb_prop in B as [B _]. apply NC. apply FN in B as (name & x & IN & EX & TB).
  apply req_cert_name in EX; [|exact TB]. now subst.
Qed.
End Props.

(** * The property is false of the responder *)
Lemma serve_session_any {cfg : Config} {cr : Crypto} {slots} reqs : forall k ex R l R', (k + N.of_nat (length reqs) < 256)%N -> Forall bytes reqs -> session slots ex R ->
  serve k reqs R = Some (l, R') -> session slots (ex ++ l) R'.
Proof.
  induction reqs as [|req reqs IH]; intros k ex R l R' L F S H; cbn [serve] in H.
  - injection H as <- <-. now rewrite app_nil_r.
  - inversion F as [|? ? F1 F2]; subst. destruct (responder_handle_msg R (sample_rnd k) req big_buf) as [[[out [[]|e|p]|p] b] R1] eqn:EH; try discriminate.
    destruct (serve (k + 1) reqs R1) as [[l2 R2]|] eqn:ES; [|discriminate]. injection H as <- <-.
    change ((req, out) :: l2) with ([(req, out)] ++ l2). rewrite app_assoc. eapply IH; [| |eapply session_step; eauto|exact ES]; auto.
    + cbn [length] in L. lia.
    + apply sample_rnd_ok. lia.
Qed.
(** A build with a crypto provider, configured without any capability. *)
Definition silent_toml : SpdmConfig := mkSpdmConfig 5 1024 4 4096 [] 64 ["ECDSA_ECC_NIST_P256"%string] 8 1024 2 16.
Definition silent_cfg : Config := Eval vm_compute in
  match gen_config true true true silent_toml with Ok c => c | _ => sample_cfg end.
#[local] Existing Instance silent_cfg.
#[local] Existing Instance sample_crypto.
Definition silent_ex : list (list N * list N) := Eval vm_compute in
  match serve 1 sample_requests (responder_new sample_slots) with Some (ex, _) => ex | None => [] end.
Definition silent_R : Responder := match serve 1 sample_requests (responder_new sample_slots) with Some (_, R) => R | None => responder_new sample_slots end.
Lemma silent_served : serve 1 sample_requests (responder_new sample_slots) = Some (silent_ex, silent_R).
Proof. vm_compute. reflexivity. Qed.
Lemma silent_session : session sample_slots silent_ex silent_R.
Proof.
  apply (serve_session_any (cfg := silent_cfg) sample_requests 1 [] _ _ _ eq_refl (bytes_all sample_requests eq_refl) (session_new sample_slots)). exact silent_served.
Qed.
(** It announces no capability, and then sends digests, the certificate chain and
    a signed answer to a challenge. *)
Theorem C70_responder_refuted :
  built /\ CAPABILITIES = [] /\ setting sample_slots /\ session sample_slots silent_ex silent_R /\
  In ([0x11; 0x61]%N ++ capabilities_layout 12 0) (map snd silent_ex) /\
  map (fun x => code (snd x)) silent_ex = [0x04; 0x61; 0x63; 0x01; 0x02; 0x03]%N.
Proof.
  split; [exists silent_toml; vm_compute; reflexivity|]. split; [reflexivity|]. split; [|split; [exact silent_session|split; [vm_compute; auto|reflexivity]]].
  split; [reflexivity|]. split; [apply Nat.leb_le; reflexivity|]. exact (proj2 (proj2 (@sample_setting))).
Qed.
(** A requester of this build with that very responder: three exchanges. *)
Example C70_vca_example : ~ In "CERT_CAP"%string CAPABILITIES /\ req_setting /\
  exists ev R, drive 2 (map snd (firstn 3 silent_ex)) (requester_new [1; 2; 3]%N) = Some (ev, true, R) /\
    map event_code ev = [0x84; 0x04; 0xE1; 0x61; 0xE3; 0x63]%N /\ req_session [1; 2; 3]%N ev R.
Proof.
  split; [intros []|]. split; [split; [apply Nat.leb_le; reflexivity|split; [apply Nat.ltb_lt; reflexivity|exact (proj2 (proj2 sample_req_setting))]]|].
  destruct (drive 2 (map snd (firstn 3 silent_ex)) (requester_new [1; 2; 3]%N)) as [[[ev b] R]|] eqn:E.
  2: { apply (f_equal (fun o => match o with Some _ => true | None => false end)) in E. vm_compute in E. discriminate. }
  assert (EV : Some (map event_code ev, b) = Some ([0x84; 0x04; 0xE1; 0x61; 0xE3; 0x63]%N, true)).
  { transitivity (match drive 2 (map snd (firstn 3 silent_ex)) (requester_new [1; 2; 3]%N) with Some (ev, b, _) => Some (map event_code ev, b) | None => None end).
    - now rewrite E.
    - vm_compute. reflexivity. }
  injection EV as EV ->. exists ev, R. split; [reflexivity|]. split; [exact EV|].
  apply (drive_session [1; 2; 3]%N _ _ _ [] _ _ _ (req_session_new _)) in E; [exact E| |].
  - repeat (constructor; [vm_compute; reflexivity|]). constructor.
  - vm_compute. reflexivity.
Qed.
(** PSK_CAP, which is to replace the certificate exchanges (README), is refused
    by build.rs. *)
Theorem C70_no_psk {cfg : Config} {cr : Crypto} : @built cfg cr -> ~ In "PSK_CAP"%string (@CAPABILITIES cfg).
Proof.
  intros (c & H) I.
  destruct (C67_no_injection _ _ _ _ _ H) as [F _]. rewrite Forall_forall in F. apply F in I. cbn in I. intuition discriminate.
Qed.
Print Assumptions C70_requester_partial.
Print Assumptions C70_vca_only_partial.
Print Assumptions C70_responder_refuted.
Print Assumptions C70_no_psk.
