(** C83: an endpoint can be inspected at any time. *)
From Verif Require Import Base BaseLemmas Config Encoding MsgCommon Transcript Crypto Responder Requester Accessors SpecWire SpecResponder SpecRequester
     PropTools PropTranscript PropResponder PropRequester PropRspState PropReqState Sample SampleRun SampleReq.

Section PropInspect.
Context {cfg : Config} {cr : Crypto}.

(** The call of [handle_msg] made after [before] panicked. *)
Definition rsp_call_panics (R : Responder) (before : list call) (rnd : Rnd) (req rsp : list N) : Prop :=
  exists p, fst (fst (responder_handle_msg (after R before) rnd req rsp)) = Panicked p.
Definition req_call_panics (R : Requester) (before : list req_call) (rsp : list N) : Prop :=
  exists p, fst (requester_handle_msg (req_after R before) rsp) = Panic p.

Lemma finish_panic r rsp : let '(reply, _, st) := rsp_finish r rsp in (exists p, reply = Panicked p) <-> st = None.
Proof.
  assert (A : forall (x : res ResponderError unit) o (s : RspStates), (exists p, Replied o x = Panicked p) <-> Some s = None)
    by (intros; split; [intros (p & X); discriminate|discriminate]).
  assert (B : forall q, (exists p, Panicked q = Panicked p) <-> @None RspStates = None) by (intros; split; eauto).
  unfold rsp_finish. destruct r as [[size st]|e|p]; [destruct (_ <=? _); auto| |auto].
  destruct (write_msg _ _ _ rsp) as [[size|e'|p] rsp']; auto. destruct (_ <=? _); auto.
Qed.
Lemma handle_panic R rnd req rsp : let '(reply, _, R') := responder_handle_msg R rnd req rsp in
  (exists p, reply = Panicked p) <-> rsp_state R' = None.
Proof.
  unfold responder_handle_msg. destruct (rsp_state R) as [st|] eqn:ES; [|rewrite ES; split; eauto].
  destruct (rsp_dispatch _ _ _ _ _) as [r c]. pose proof (finish_panic r (c_rsp c)) as F.
  destruct (rsp_finish r (c_rsp c)) as [[a b] st']. exact F.
Qed.

(** [state()] of a responder panics exactly if a [handle_msg] since the last reset
    panicked; [slots()] is what the responder was created with, and the transcript
    has its full length (the slice [get] takes is within the buffer). *)
Theorem C83_responder slots calls :
  let R := after (responder_new slots) calls in
  responder_slots R = slots /\
  (length (t_get (responder_transcript R)) = t_len (responder_transcript R) /\ t_len (responder_transcript R) <= TRANSCRIPT_SIZE) /\
  ((exists p, responder_state R = Panic p) <->
   exists before rnd req rsp later, calls = before ++ CallHandle rnd req rsp :: later /\ Forall (fun c => c <> CallReset) later /\
     rsp_call_panics (responder_new slots) before rnd req rsp) /\
  ((forall p, responder_state R <> Panic p) -> exists st, responder_state R = Ok st).
Proof.
  intros R. destruct (after_ok slots calls (responder_new slots) eq_refl t_new_wf) as [ES W]. fold R in ES, W.
  split; [exact ES|]. split; [|split].
  - unfold responder_transcript. split; [now apply t_get_length|apply W].
  - assert (G : forall R0, (exists p, responder_state R0 = Panic p) <-> rsp_state R0 = None).
    { intros R0. unfold responder_state. destruct (rsp_state R0); split; eauto; [intros (p & X); discriminate|discriminate]. }
    rewrite G. unfold R. clear R ES W. induction calls as [|c calls IH] using rev_ind.
    + split; [discriminate|]. intros (before & rnd & req & rsp & later & E & _). now destruct before.
    + unfold after. rewrite fold_left_app. cbn [fold_left]. fold (after (responder_new slots) calls).
      destruct c as [rnd req rsp|]; cbn [after_call].
      * pose proof (handle_panic (after (responder_new slots) calls) rnd req rsp) as HP.
        destruct (responder_handle_msg (after (responder_new slots) calls) rnd req rsp) as [[reply out] R1] eqn:EH.
        split.
        -- intros E. exists calls, rnd, req, rsp, []. split; [reflexivity|]. split; [constructor|].
           unfold rsp_call_panics. rewrite EH. cbn [fst]. now apply HP.
        -- intros (before & rnd' & req' & rsp' & later & E & F & P). destruct later as [|c later _] using rev_ind.
           ++ apply app_inj_tail in E as [-> E]. injection E as -> -> ->. unfold rsp_call_panics in P. rewrite EH in P. now apply HP.
           ++ rewrite app_comm_cons, app_assoc in E. apply app_inj_tail in E as [-> _]. apply Forall_app in F as [F _].
              assert (D : rsp_state (after (responder_new slots) (before ++ CallHandle rnd' req' rsp' :: later)) = None).
              { apply IH. exists before, rnd', req', rsp', later. auto. }
              unfold responder_handle_msg in EH. rewrite D in EH. injection EH as _ _ <-. exact D.
      * split; [discriminate|]. intros (before & rnd' & req' & rsp' & later & E & F & _). exfalso.
        destruct later as [|c later _] using rev_ind; [apply app_inj_tail in E as [_ E]; discriminate|].
        rewrite app_comm_cons, app_assoc in E. apply app_inj_tail in E as [_ <-]. apply Forall_app in F as [_ F]. inversion F; congruence.
  - unfold responder_state. destruct (rsp_state R) as [st|]; [eauto|]. intros H. now destruct (H PUnwrap).
Qed.

Lemma req_handle_panic R rsp : let '(b, R') := requester_handle_msg R rsp in (exists p, b = Panic p) <-> req_state R' = None.
Proof.
  unfold requester_handle_msg. destruct (req_state R) as [st|] eqn:ES; [|rewrite ES; split; eauto].
  destruct (req_dispatch _ _ _ _) as [[st'|e|p] t]; cbn [req_state]; split; eauto; try discriminate; intros (p' & X); discriminate.
Qed.
(** The requester's transcript stays within its buffer whatever a call returns. *)
Definition q_keeps {A} (m : Q A) : Prop := forall c, t_wf (q_tr c) -> t_wf (q_tr (snd (m c))).
Definition t_keeps {A} (m : T A) : Prop := forall t, t_wf t -> t_wf (snd (m t)).
Lemma extend_wf bs t : t_wf t -> t_wf (snd (t_extend bs t)).
Proof.
  intros W. destruct (t_extend_spec t bs W) as [A B]. destruct (le_lt_dec (t_len t + length bs) TRANSCRIPT_SIZE) as [L|L].
  - destruct (A L) as (t' & -> & W' & _). exact W'.
  - rewrite (B L). exact W.
Qed.
Lemma q_keeps_bind {A B} (m : Q A) (k : A -> Q B) : q_keeps m -> (forall x, q_keeps (k x)) -> q_keeps (bind m k).
Proof. intros H1 H2 c W. unfold bind. specialize (H1 c W). destruct (m c) as [[x|e|p] c1]; cbn [snd] in *; auto. now apply H2. Qed.
Lemma t_keeps_bind {A B} (m : T A) (k : A -> T B) : t_keeps m -> (forall x, t_keeps (k x)) -> t_keeps (bind m k).
Proof. intros H1 H2 c W. unfold bind. specialize (H1 c W). destruct (m c) as [[x|e|p] c1]; cbn [snd] in *; auto. now apply H2. Qed.
Lemma t_keeps_lift {A} (r : res RequesterError A) : t_keeps (lift r).
Proof. intros t W. exact W. Qed.
Lemma t_keeps_map {A E} f (r : res E A) : t_keeps (map_err f (lift r)).
Proof. intros t W. unfold map_err, lift. destruct r; exact W. Qed.
Lemma t_keeps_extend bs : t_keeps (tr_extend bs).
Proof. intros t W. pose proof (extend_wf bs t W) as H. unfold tr_extend, map_err. destruct (t_extend bs t) as [[u|e|p] t']; exact H. Qed.
Lemma t_keeps_dispatch st root rsp : t_keeps (req_dispatch st root rsp).
Proof.
  destruct st as [| |s|s|s|s|]; cbn [req_dispatch];
    unfold req_version_handle_msg, req_cap_handle_msg, req_alg_handle_msg, handle_digests, handle_certificate, req_chal_handle_msg;
    repeat first
    [ intros t W; exact W
    | apply t_keeps_extend | apply t_keeps_map | apply t_keeps_lift
    | apply t_keeps_bind; [|intros]
    | match goal with
      | |- t_keeps (if ?b then _ else _) => destruct b
      | |- t_keeps (match ?b with Some _ => _ | None => _ end) => destruct b
      end ].
Qed.
Lemma q_keeps_write st fresh : q_keeps (write_req st fresh).
Proof.
  destruct st as [| |s|s|s|s|]; cbn [write_req];
    unfold Requester.write_get_version, cap_write_msg, alg_write_msg, write_get_digests_msg, write_get_certificate_msg, chal_write_msg;
    repeat first
    [ intros t W; exact W
    | apply q_keeps_bind; [|intros]
    | match goal with
      | |- q_keeps (if ?b then _ else _) => destruct b
      | |- q_keeps (match ?b with Some _ => _ | None => _ end) => destruct b
      | |- q_keeps (q_write _ ?w) => let c := fresh in let W := fresh in intros c W; unfold q_write; destruct (w (q_buf c)) as [[?|?|?] ?]; exact W
      | |- q_keeps (q_prefix _) => let c := fresh in let W := fresh in intros c W; unfold q_prefix; destruct (_ <=? _); exact W
      | |- q_keeps (q_extend ?bs) => let c := fresh in let W := fresh in let H := fresh in
          intros c W; pose proof (extend_wf bs (q_tr c) W) as H; unfold q_extend, map_err;
          destruct (t_extend bs (q_tr c)) as [[?|?|?] ?]; exact H
      | |- q_keeps q_clear => intros c W; now apply (t_clear_spec (q_tr c) W)
      end ].
Qed.
Lemma req_after_wf calls : forall R, t_wf (req_transcript R) -> t_wf (req_transcript (req_after R calls)).
Proof.
  induction calls as [|c calls IH]; intros R W; [exact W|]. unfold req_after. cbn [fold_left]. apply IH. destruct c as [fresh buf|rsp]; cbn [req_after_call].
  - unfold requester_next_request. destruct (req_state R) as [st|]; [|exact W].
    pose proof (q_keeps_write st fresh (mkQCtx buf (req_transcript R) st) W) as K.
    destruct st; try exact W; destruct (write_req _ _ _) as [r c]; exact K.
  - unfold requester_handle_msg. destruct (req_state R) as [st|]; [|exact W].
    pose proof (t_keeps_dispatch st (req_root R) rsp (req_transcript R) W) as K.
    destruct (req_dispatch _ _ _ _) as [[st'|e|p] t]; exact K.
Qed.

(** [state()] of a requester panics exactly if an earlier [handle_msg] panicked: a
    panic of [next_request] leaves the state in place.  The slice [get] takes of the transcript stays within the
    buffer, whatever the calls returned. *)
Theorem C83_requester root calls :
  let R := req_after (requester_new root) calls in
  (length (t_get (requester_transcript R)) = t_len (requester_transcript R) /\ t_len (requester_transcript R) <= TRANSCRIPT_SIZE) /\
  ((exists p, requester_state R = Panic p) <->
   exists before rsp later, calls = before ++ CallMsg rsp :: later /\ req_call_panics (requester_new root) before rsp) /\
  ((forall p, requester_state R <> Panic p) -> exists st, requester_state R = Ok st).
Proof.
  intros R. split; [|split].
  - pose proof (req_after_wf calls (requester_new root) t_new_wf) as W. fold R in W.
    unfold requester_transcript. split; [now apply t_get_length|apply W].
  - assert (G : forall R0, (exists p, requester_state R0 = Panic p) <-> req_state R0 = None).
    { intros R0. unfold requester_state. destruct (req_state R0); split; eauto; [intros (p & X); discriminate|discriminate]. }
    rewrite G. unfold R. clear R. induction calls as [|c calls IH] using rev_ind.
    + split; [discriminate|]. intros (before & rsp & later & E & _). now destruct before.
    + unfold req_after. rewrite fold_left_app. cbn [fold_left]. fold (req_after (requester_new root) calls).
      assert (X : forall before rsp later, calls ++ [c] = before ++ CallMsg rsp :: later ->
        (later = [] /\ c = CallMsg rsp /\ calls = before) \/ exists later', calls = before ++ CallMsg rsp :: later').
      { intros before rsp later E. destruct later as [|c' later _] using rev_ind.
        - apply app_inj_tail in E as [-> ->]. auto.
        - rewrite app_comm_cons, app_assoc in E. apply app_inj_tail in E as [-> _]. eauto. }
      destruct c as [fresh buf|rsp]; cbn [req_after_call].
      * destruct (requester_next_request (req_after (requester_new root) calls) fresh buf) as [[r buf'] R1] eqn:EN.
        destruct (C41_next_keeps_state _ _ _ _ _ _ EN) as [_ K].
        assert (KN : req_state R1 = None <-> req_state (req_after (requester_new root) calls) = None)
          by (destruct (req_state R1), (req_state (req_after (requester_new root) calls)); try contradiction; split; auto; discriminate).
        rewrite KN, IH. split.
        -- intros (before & rsp & later & -> & P). exists before, rsp, (later ++ [CallNext fresh buf]).
           split; [now rewrite app_comm_cons, app_assoc|exact P].
        -- intros (before & rsp & later & E & P). destruct (X _ _ _ E) as [(_ & E2 & _)|(later' & E2)]; [discriminate|]. eauto.
      * pose proof (req_handle_panic (req_after (requester_new root) calls) rsp) as HP.
        destruct (requester_handle_msg (req_after (requester_new root) calls) rsp) as [b R1] eqn:EH. split.
        -- intros E. exists calls, rsp, []. split; [reflexivity|]. unfold req_call_panics. rewrite EH. now apply HP.
        -- intros (before & rsp' & later & E & P). destruct (X _ _ _ E) as [(-> & E2 & ->)|(later' & E2)].
           ++ injection E2 as ->. unfold req_call_panics in P. rewrite EH in P. now apply HP.
           ++ assert (D : req_state (req_after (requester_new root) calls) = None) by (apply IH; eauto).
              unfold requester_handle_msg in EH. rewrite D in EH. injection EH as _ <-. exact D.
  - unfold requester_state. destruct (req_state R) as [st|]; [eauto|]. intros H. now destruct (H PUnwrap).
Qed.

(** The requester's own slots: shown as they were given, and without influence on
    anything else: two requesters that differ in them only give the same results,
    write the same bytes and reach the same state, whatever the calls. *)
Definition init_after_call (I : RequesterInit) (c : req_call) : RequesterInit :=
  match c with
  | CallNext fresh buf => let '(_, _, I') := requester_init_next_request I fresh buf in I'
  | CallMsg rsp => let '(_, I') := requester_init_handle_msg I rsp in I'
  end.
Definition init_after (I : RequesterInit) (calls : list req_call) : RequesterInit := fold_left init_after_call calls I.
(** What the call after [calls] returns, and the buffer it leaves. *)
Definition init_returns (I : RequesterInit) (c : req_call) : (res RequesterError (list N) * list N) + res RequesterError bool :=
  match c with
  | CallNext fresh buf => inl (fst (requester_init_next_request I fresh buf))
  | CallMsg rsp => inr (fst (requester_init_handle_msg I rsp))
  end.
Lemma init_after_data calls : forall I, ri_data (init_after I calls) = req_after (ri_data I) calls /\ ri_slots (init_after I calls) = ri_slots I.
Proof.
  induction calls as [|c calls IH]; intros I; [auto|]. unfold init_after, req_after. cbn [fold_left].
  destruct (IH (init_after_call I c)) as [A B]. unfold init_after in A, B. rewrite A, B. unfold req_after.
  destruct c as [fresh buf|rsp]; cbn [init_after_call req_after_call].
  - unfold requester_init_next_request. destruct (requester_next_request (ri_data I) fresh buf) as [[r b] R]. split; reflexivity.
  - unfold requester_init_handle_msg. destruct (requester_handle_msg (ri_data I) rsp) as [r R]. split; reflexivity.
Qed.
Theorem C83_requester_slots root slots1 slots2 calls c :
  let I1 := init_after (requester_init_new root slots1) calls in
  let I2 := init_after (requester_init_new root slots2) calls in
  requester_slots I1 = slots1 /\ init_returns I1 c = init_returns I2 c /\
  requester_state (ri_data I1) = requester_state (ri_data I2) /\ requester_transcript (ri_data I1) = requester_transcript (ri_data I2).
Proof.
  intros I1 I2. destruct (init_after_data calls (requester_init_new root slots1)) as [A B]. destruct (init_after_data calls (requester_init_new root slots2)) as [C D].
  fold I1 in A, B. fold I2 in C, D. cbn [requester_init_new ri_slots ri_data] in *.
  split; [exact B|]. split; [|rewrite A, C; auto].
  destruct c as [fresh buf|rsp]; unfold init_returns, requester_init_next_request, requester_init_handle_msg; rewrite A, C.
  - destruct (requester_next_request (req_after (requester_new root) calls) fresh buf) as [[r b] R]. reflexivity.
  - destruct (requester_handle_msg (req_after (requester_new root) calls) rsp) as [r R]. reflexivity.
Qed.
(** It is the requester of all other theorems. *)
Theorem C83_same_requester root slots calls : ri_data (init_after (requester_init_new root slots) calls) = req_after (requester_new root) calls.
Proof. apply (init_after_data calls (requester_init_new root slots)). Qed.
End PropInspect.

(** A request of two bytes is such a call; a reset makes [state()] usable again. *)
#[local] Existing Instance sample_cfg.
#[local] Existing Instance sample_crypto.
Definition short_call : call := CallHandle (sample_rnd 1) [0x10; 0x84]%N big_buf.
Lemma short_call_panics : rsp_call_panics (responder_new sample_slots) [] (sample_rnd 1) [0x10; 0x84]%N big_buf.
Proof. exists PAssert. vm_compute. reflexivity. Qed.
Example C83_responder_example :
  responder_state (after (responder_new sample_slots) [short_call; CallHandle (sample_rnd 2) (sample_request 0) big_buf]) = Panic PUnwrap /\
  responder_state (after (responder_new sample_slots) [short_call; CallReset]) = Ok RspVersion /\
  rsp_call_panics (responder_new sample_slots) [] (sample_rnd 1) [0x10; 0x84]%N big_buf.
Proof. refine (conj _ (conj _ short_call_panics)); vm_compute; reflexivity. Qed.
Example C83_requester_example :
  requester_state (req_after (requester_new [1; 2; 3]%N) [CallMsg [0x10; 4]%N; CallNext [] big_buf]) = Panic PUnwrap /\
  (exists p, requester_state (req_after (requester_new [1; 2; 3]%N) [CallNext [] big_buf]) <> Panic p).
Proof. split; [vm_compute; reflexivity|]. exists PUnwrap. vm_compute. discriminate. Qed.
Print Assumptions C83_responder.
Print Assumptions C83_requester.
