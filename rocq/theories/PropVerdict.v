(** C54: whatever is sent to a responder with whatever history, the first failing
    check of SpecVerdict decides whether the call answers, fails (and how) or panics. *)
From Verif Require Import Base BaseLemmas Config Encoding MsgCommon MsgVersion MsgCapabilities MsgAlgorithms MsgDigest
     MsgCertificates MsgChallenge MsgError Transcript Crypto Responder Requester SpecWire SpecMsgs SpecResponder SpecVerdict
     PropTools PropTranscript PropChal RspParts RspStep VerdictLogic RspVerdict PropResponder PropRspState PropRspAns Sample SampleRun.

#[local] Opaque chain_bytes.
#[local] Arguments Nat.leb : simpl never.
Section PropVerdict.
Context {cfg : Config} {cr : Crypto}.

Lemma outcome_total slots R rnd req rsp st : setting slots -> reached slots R -> bytes req -> rnd_ok rnd -> rsp_state R = Some st ->
  exists v, first_failing (checks slots rnd req (length rsp) (t_get (rsp_transcript R)) st) v /\
    ends_with v (fst (fst (responder_handle_msg R rnd req rsp))).
Proof.
  intros (HL & H8 & HC) HR HB RK ES. destruct (reached_ok _ _ HR) as [EQ W].
  destruct (D_dispatch slots rnd req HB HL H8 HC st (mkCtx rsp (rsp_transcript R)) W RK) as (v & F & M). cbn [c_rsp c_tr] in F.
  exists v. split; [exact F|]. unfold responder_handle_msg. rewrite ES, EQ.
  destruct (rsp_dispatch st slots rnd req (mkCtx rsp (rsp_transcript R))) as [r c] eqn:ED. cbn [fst] in M.
  destruct r as [[size st']|e|p]; unfold rsp_finish.
  - pose proof (dispatch_sound slots rnd req HB HL H8 HC st (mkCtx rsp (rsp_transcript R)) _ _ _ W RK ED) as (o & log' & SV & -> & L1 & R1 & W1 & G1).
    destruct (Nat.leb_spec (length o) (length (c_rsp c))) as [L2|L2]; [|rewrite R1, app_length in L2; lia].
    cbn [fst]. destruct v; auto.
  - change (write_msg Error_id (fun e => e) (error_write_body (responder_error_to_msg e)) (c_rsp c)) with (write_error (responder_error_to_msg e) (c_rsp c)).
    destruct (C16_error_write (responder_error_to_msg e) (c_rsp c)) as [W1 W2]. set (L := length ([18; 127]%N ++ error_layout (responder_error_to_msg e))) in *.
    destruct (Nat.le_gt_cases L (length (c_rsp c))) as [X|X].
    + rewrite (W1 X). destruct (Nat.leb_spec L (length (([18; 127]%N ++ error_layout (responder_error_to_msg e)) ++ skipn L (c_rsp c)))) as [|Y].
      * cbn [fst]. destruct v; auto.
      * rewrite app_length in Y. unfold L in *. lia.
    + destruct (W2 X) as (e2 & k & -> & _ & W3). rewrite W3. cbn [fst]. destruct v; auto.
  - cbn [fst]. destruct v; auto.
Qed.
(** Some check fails first or all hold. *)
Theorem C54_verdict_exists slots R rnd req (rsp : list N) st : setting slots -> reached slots R -> bytes req -> rnd_ok rnd -> rsp_state R = Some st ->
  exists v, first_failing (checks slots rnd req (length rsp) (t_get (rsp_transcript R)) st) v.
Proof. intros HS HR HB RK ES. destruct (outcome_total slots R rnd req rsp st HS HR HB RK ES) as (v & F & _). eauto. Qed.
(** The call ends as that check says. *)
Theorem C54_verdict slots R rnd req rsp st v : setting slots -> reached slots R -> bytes req -> rnd_ok rnd -> rsp_state R = Some st ->
  first_failing (checks slots rnd req (length rsp) (t_get (rsp_transcript R)) st) v ->
  ends_with v (fst (fst (responder_handle_msg R rnd req rsp))).
Proof.
  intros HS HR HB RK ES F. destruct (outcome_total slots R rnd req rsp st HS HR HB RK ES) as (w & F' & M).
  now rewrite (first_failing_unique _ _ _ F F').
Qed.
(** Hence: *)
Corollary C54_answers_iff slots R rnd req rsp st : setting slots -> reached slots R -> bytes req -> rnd_ok rnd -> rsp_state R = Some st ->
  ((exists out rsp' R', responder_handle_msg R rnd req rsp = (Replied out (Ok tt), rsp', R')) <->
   Forall fst (checks slots rnd req (length rsp) (t_get (rsp_transcript R)) st)).
Proof.
  intros HS HR HB RK ES. destruct (outcome_total slots R rnd req rsp st HS HR HB RK ES) as (v & F & M). split.
  - intros (out & rsp' & R' & E1). rewrite E1 in M. cbn [fst] in M. destruct v; simpl in M; try contradiction.
    apply (first_failing_answer (checks slots rnd req (length rsp) (t_get (rsp_transcript R)) st)); [|exact F].
    clear. unfold checks. destruct st; repeat constructor; try discriminate; try (destruct (_ =? _)%N); repeat constructor; try discriminate.
    destruct (_ =? _)%N; repeat constructor; discriminate.
  - intros FA. assert (F' : first_failing (checks slots rnd req (length rsp) (t_get (rsp_transcript R)) st) Answer).
    { clear -FA. induction FA as [|[c v] r H _ IH]; [constructor|]. now apply holds_here. }
    rewrite (first_failing_unique _ _ _ F F') in M. destruct (responder_handle_msg R rnd req rsp) as [[[out [[]|e|p]|p] rsp'] R']; simpl in M; try contradiction. eauto.
Qed.
Corollary C54_panics_iff slots R rnd req rsp st : setting slots -> reached slots R -> bytes req -> rnd_ok rnd -> rsp_state R = Some st ->
  ((exists p rsp' R', responder_handle_msg R rnd req rsp = (Panicked p, rsp', R')) <->
   first_failing (checks slots rnd req (length rsp) (t_get (rsp_transcript R)) st) Crash).
Proof.
  intros HS HR HB RK ES. destruct (outcome_total slots R rnd req rsp st HS HR HB RK ES) as (v & F & M). split.
  - intros (p & rsp' & R' & E1). rewrite E1 in M. cbn [fst] in M. destruct v; simpl in M; try contradiction. exact F.
  - intros F'. rewrite (first_failing_unique _ _ _ F F') in M. destruct (responder_handle_msg R rnd req rsp) as [[[out [[]|e|p]|p] rsp'] R']; simpl in M; try contradiction. eauto.
Qed.
Corollary C54_fails_iff slots R rnd req rsp st : setting slots -> reached slots R -> bytes req -> rnd_ok rnd -> rsp_state R = Some st ->
  ((exists out e rsp' R', responder_handle_msg R rnd req rsp = (Replied out (Err e), rsp', R')) <->
   exists why, first_failing (checks slots rnd req (length rsp) (t_get (rsp_transcript R)) st) (Refuse why)).
Proof.
  intros HS HR HB RK ES. destruct (outcome_total slots R rnd req rsp st HS HR HB RK ES) as (v & F & M). split.
  - intros (out & e & rsp' & R' & E1). rewrite E1 in M. cbn [fst] in M. destruct v; simpl in M; try contradiction. eauto.
  - intros (why & F'). rewrite (first_failing_unique _ _ _ F F') in M. destruct (responder_handle_msg R rnd req rsp) as [[[out [[]|e|p]|p] rsp'] R']; simpl in M; try contradiction. eauto.
Qed.
(** After a panic the responder is unusable until reset. *)
Theorem C54_after_panic R rnd req rsp p rsp' R' : responder_handle_msg R rnd req rsp = (Panicked p, rsp', R') ->
  rsp_state R' = None /\ forall rnd2 req2 rsp2, exists p2, responder_handle_msg R' rnd2 req2 rsp2 = (Panicked p2, rsp2, R').
Proof.
  intros H. assert (E1 : rsp_state R' = None).
  { unfold responder_handle_msg in H. destruct (rsp_state R) as [st|] eqn:ES; [|injection H as <- <- <-; exact ES].
    destruct (rsp_dispatch _ _ _ _ _) as [r c]. destruct (rsp_finish r (c_rsp c)) as [[a b] d] eqn:EF. injection H as -> <- <-. cbn [rsp_state].
    unfold rsp_finish in EF. destruct r as [[size st']|e|q].
    - destruct (_ <=? _); congruence.
    - destruct (write_msg _ _ _ _) as [[n|x|q] b2]; try congruence. destruct (_ <=? _); congruence.
    - congruence. }
  split; [exact E1|]. intros. unfold responder_handle_msg. rewrite E1. eauto.
Qed.
End PropVerdict.

#[local] Existing Instance sample_cfg.
#[local] Existing Instance sample_crypto.
(** A fresh responder: GET_VERSION passes all checks, with a wrong version byte,
    a wrong code, a wrong reserved byte (which the error names) or a small buffer exactly one of the
    checks decides, and a two byte request crashes it. *)
Example C54_example : setting sample_slots /\ reached sample_slots (responder_new sample_slots) /\
  rsp_state (responder_new sample_slots) = Some RspVersion /\
  let fate req room := first_failing (checks sample_slots (sample_rnd 1) req room [] RspVersion) in
  fate [0x10; 0x84; 0; 0]%N 10 Answer /\
  fate [0x11; 0x84; 0; 0]%N 10 (Refuse (is RspParseHeader)) /\
  fate [0x11; 0xE1; 0; 0]%N 10 (Refuse (is (RspUnexpectedMsgCode 0x84 0x11))) /\
  fate [0x10; 0x84; 0; 1]%N 10 (Refuse (fault_of RspRead (SpecFaults.two_reserved_table [0; 1]%N))) /\
  fate [0x10; 0x84; 0; 0]%N 9 (Refuse (is RspBufferFull)) /\
  fate [0x10; 0x84]%N 10 Crash.
Proof.
  refine (conj sample_setting (conj _ (conj eq_refl _))).
  { exists []. split; [constructor|reflexivity]. }
  cbv zeta. unfold checks. cbn [code nth N.eqb Pos.eqb app accepts map fst].
  repeat apply conj.
  - repeat (apply holds_here); [simpl; lia|simpl; auto|simpl; auto|exists []; reflexivity| |constructor].
    split; [lia|]. apply Nat.leb_le. reflexivity.
  - apply holds_here; [simpl; lia|]. apply holds_here; [simpl; auto|]. apply fails_here. simpl. intros [X|[]]. discriminate.
  - apply holds_here; [simpl; lia|]. apply fails_here. simpl. intros [X|[]]. discriminate.
  - apply holds_here; [simpl; lia|]. apply holds_here; [simpl; auto|]. apply holds_here; [simpl; auto|]. apply fails_here. intros (r & X). discriminate.
  - apply holds_here; [simpl; lia|]. apply holds_here; [simpl; auto|]. apply holds_here; [simpl; auto|]. apply holds_here; [exists []; reflexivity|]. apply fails_here. lia.
  - apply fails_here. simpl. lia.
Qed.
(** In the middle of a session: a challenge for an empty slot fails, with a known cause. *)
Example C54_example_challenge : reached sample_slots (served_R (firstn 5 sample_requests)) /\
  exists s, rsp_state (served_R (firstn 5 sample_requests)) = Some (RspChallenge s) /\
  exists why, first_failing (checks sample_slots (sample_rnd 1) (upd (sample_request 5) 2 1%N) (length big_buf)
                (t_get (rsp_transcript (served_R (firstn 5 sample_requests)))) (RspChallenge s)) (Refuse why) /\ why RspInvalidSlot.
Proof.
  destruct C31_example as (HR & HB & _ & s & ES & _).
  assert (RK : rnd_ok (sample_rnd 1)) by (split; [reflexivity|apply bytes_repeat; reflexivity]).
  refine (conj HR _). exists s. split; [exact ES|].
  assert (HB' : bytes (upd (sample_request 5) 2 1%N)) by (apply bytes_check; vm_compute; reflexivity).
  destruct (outcome_total _ _ (sample_rnd 1) _ big_buf _ sample_setting HR HB' RK ES) as (v & F & M).
  assert (X : exists out, fst (fst (responder_handle_msg (served_R (firstn 5 sample_requests)) (sample_rnd 1) (upd (sample_request 5) 2 1%N) big_buf))
     = Replied out (Err RspInvalidSlot)) by (eexists; vm_compute; reflexivity).
  destruct X as (out & X). rewrite X in M. destruct v as [|why|]; simpl in M; try contradiction. exists why. auto.
Qed.
