(** C54, C59, C73, C74: the tables name exactly one error.  A call fails with the
    error [e] if and only if the first failing row of its table names [e]. *)
From Verif Require Import Base BaseLemmas Config Encoding MsgCommon MsgVersion MsgCapabilities MsgAlgorithms MsgDigest
     MsgCertificates MsgChallenge MsgError MsgMeasurements Transcript Crypto Responder Requester SpecWire SpecMsgs SpecResponder SpecRequester
     SpecChecks SpecFaults SpecWriteFaults SpecVerdict SpecReqVerdict
     PropTools PropTranscript PropVersionCaps PropChal PropMeas RspParts RspStep VerdictLogic RspVerdict PropResponder PropRspState PropFaults PropWriteFaults PropVerdict
     ReqStep ReqMsg PropRequester PropReqState ReqVerdict PropReqVerdict Sample SampleRun SampleReq.

#[local] Opaque chain_bytes.
#[local] Arguments Nat.leb : simpl never.

(** At most one error. *)
Definition one {E} (why : E -> Prop) : Prop := forall e e', why e -> why e' -> e = e'.
Definition decided {E} (v : verdict E) : Prop := match v with Refuse why => one why | _ => True end.
Definition decides {E} (t : list (check E)) : Prop := Forall (fun c => decided (snd c)) t.

Lemma decides_first {E} (t : list (check E)) v : decides t -> first_failing t v -> decided v.
Proof. intros HD F. induction F as [|c v r NC|c v r w HC F IH]; [exact I|now inversion HD|]. apply IH. now inversion HD. Qed.
Lemma one_is {E} (e : E) : one (is e). Proof. intros x y -> ->. reflexivity. Qed.
Lemma decides_nil {E} : @decides E []. Proof. constructor. Qed.
Lemma decides_app {E} (a b : list (check E)) : decides a -> decides b -> decides (a ++ b).
Proof. intros A B. apply Forall_app. auto. Qed.
Lemma decides_or {E} c (e : E) t : decides t -> decides (or_else c e :: t).
Proof. intros H. constructor; [apply one_is|exact H]. Qed.
Lemma decides_crash {E} c (t : list (check E)) : decides t -> decides (or_crash c :: t).
Proof. intros H. constructor; [exact I|exact H]. Qed.
Lemma decides_under {E F} (f : E -> F) t : decides t -> decides (under f t).
Proof.
  intros H. unfold decides, under. apply Forall_map. eapply Forall_impl; [|exact H]. intros [c [|why|]] HD; simpl in *; auto.
  intros x y (a & -> & A) (b & -> & B). now rewrite (HD a b A B).
Qed.
Lemma decides_has {E} buf (rd : ReadError -> E) k n : decides (has buf rd k n).
Proof. apply decides_or, decides_nil. Qed.
Lemma decides_up_to {E} room n (e : E) : decides (up_to room n e).
Proof. apply decides_or, decides_nil. Qed.
Lemma decides_rsvd {E} buf (rd : ReadError -> E) k n : decides (rsvd buf rd k n).
Proof.
  unfold rsvd. generalize (seq k n). induction l as [|i l IH]; [apply decides_nil|]. cbn [flat_map].
  apply decides_app; [|exact IH]. apply decides_app; [apply decides_has|apply decides_or, decides_nil].
Qed.
Ltac decide_table := repeat first
  [ apply decides_nil | apply decides_or | apply decides_crash | apply decides_app | apply decides_under | apply decides_has
  | apply decides_up_to | apply decides_rsvd
  | match goal with |- decides (if ?b then _ else _) => destruct b | |- decides (let k := _ in _) => cbv zeta | |- decides (match ?x with _ => _ end) => destruct x end ].

Section Tables.
Context {cfg : Config}.
Variable buf : list N.
Lemma decides_struct k : decides (struct_table buf k). Proof. unfold struct_table. decide_table. Qed.
Lemma decides_structs {E} (f : nat -> list (check E)) : (forall k, decides (f k)) -> forall n k, decides (structs_table buf f n k).
Proof. intros H. induction n as [|n IH]; intros k; cbn [structs_table]; decide_table; auto. Qed.
Lemma decides_der k : decides (der_table buf k). Proof. unfold der_table. decide_table. Qed.
Lemma decides_certs : forall n k, decides (certs_table buf n k).
Proof. induction n as [|n IH]; intros k; cbn [certs_table]; decide_table; auto using decides_der. Qed.
Lemma decides_element k : decides (element_table buf k). Proof. unfold element_table. decide_table. Qed.
Lemma decides_elements : forall n i k, decides (elements_table buf n i k).
Proof. induction n as [|n IH]; intros i k; cbn [elements_table]; decide_table; auto using decides_element. Qed.
Lemma decides_opaque k : decides (opaque_table buf k).
Proof. unfold opaque_table. decide_table; auto using decides_elements. Qed.
Lemma decides_dmtf k : decides (dmtf_table buf k). Proof. unfold dmtf_table. decide_table. Qed.
Lemma decides_record : forall n i k, decides (SpecFaults.record_table buf n i k).
Proof. induction n as [|n IH]; intros i k; cbn [SpecFaults.record_table]; unfold block_table; decide_table; auto using decides_dmtf. Qed.

Lemma decides_two_reserved : decides (two_reserved_table buf). Proof. apply decides_rsvd. Qed.
Lemma decides_version : decides (version_table buf). Proof. unfold version_table. decide_table. Qed.
Lemma decides_flags d : decides (flags_table buf d). Proof. unfold flags_table. decide_table. Qed.
Lemma decides_negotiate : decides (negotiate_table buf).
Proof. unfold negotiate_table. decide_table. apply decides_structs. intros k. apply decides_under, decides_struct. Qed.
Lemma decides_algorithms : decides (algorithms_table buf).
Proof.
  unfold algorithms_table, selection. decide_table. apply decides_structs. intros k. unfold selected_struct_table. decide_table; auto using decides_struct.
Qed.
Lemma decides_digests size : decides (digests_table buf size). Proof. unfold digests_table. decide_table. Qed.
Lemma decides_get_certificate : decides (get_certificate_table buf). Proof. unfold get_certificate_table. decide_table. Qed.
Lemma decides_certificate : decides (certificate_table buf). Proof. unfold certificate_table. decide_table. Qed.
Lemma decides_chain size : decides (chain_table buf size). Proof. unfold chain_table. decide_table; auto using decides_certs. Qed.
Lemma decides_challenge : decides (challenge_table buf). Proof. unfold challenge_table. decide_table. Qed.
Lemma decides_challenge_auth ds ss : decides (challenge_auth_table buf ds ss).
Proof. unfold challenge_auth_table. decide_table; auto using decides_opaque, decides_elements. Qed.
Lemma decides_error : decides (error_table buf). Proof. unfold error_table. decide_table. Qed.
Lemma decides_get_measurements : decides (get_measurements_table buf). Proof. unfold get_measurements_table. decide_table. Qed.
Lemma decides_measurements signed ss : decides (measurements_table buf signed ss).
Proof. unfold measurements_table, blocks_table. decide_table; auto using decides_record, decides_opaque, decides_elements, decides_dmtf. Qed.
End Tables.

(** A parser whose table names one error fails with [e] exactly when the table says so. *)
Definition fails_exactly {E A} (parse : list N -> res E A) (table : list N -> list (check E)) : Prop :=
  forall buf e, bytes buf -> (parse buf = Err e <-> exists why, first_failing (table buf) (Refuse why) /\ why e).
Lemma reports_error {E A} (parse : list N -> res E A) table : reports parse table -> (forall buf, decides (table buf)) -> fails_exactly parse table.
Proof.
  intros R HD buf e HB. destruct (R buf HB) as ((v & F) & EN). pose proof (EN v F) as X. split.
  - intros E1. rewrite E1 in X. destruct v as [|why|]; try destruct X. exists why. auto.
  - intros (why & F1 & W). pose proof (decides_first _ _ (HD buf) F1) as O. specialize (EN _ F1). destruct (parse buf) as [a|e'|p]; try destruct EN.
    f_equal. now apply O.
Qed.
Section Parsers.
Context {cfg : Config}.
Theorem C73_error_iff :
  fails_exactly get_version_parse_body two_reserved_table /\
  fails_exactly version_parse_body version_table /\
  fails_exactly get_capabilities_parse_body (fun buf => flags_table buf req_flag_bits) /\
  fails_exactly capabilities_parse_body (fun buf => flags_table buf rsp_flag_bits) /\
  fails_exactly negotiate_algorithms_parse_body negotiate_table /\
  fails_exactly algorithms_parse_body algorithms_table /\
  fails_exactly get_digests_parse_body two_reserved_table /\
  (NUM_SLOTS <= 8 -> forall size, fails_exactly (digests_parse_body size) (fun buf => digests_table buf size)) /\
  fails_exactly get_certificate_parse_body get_certificate_table /\
  fails_exactly certificate_parse_body certificate_table /\
  (forall size, fails_exactly (fun buf => chain_parse buf size) (fun buf => chain_table buf size)) /\
  fails_exactly challenge_parse_body challenge_table /\
  (forall ds ss, fails_exactly (fun buf => challenge_auth_parse_body buf ds ss) (fun buf => challenge_auth_table buf ds ss)) /\
  fails_exactly error_parse_body error_table /\
  fails_exactly get_measurements_parse_body get_measurements_table /\
  (forall signed ss, fails_exactly (fun buf => measurements_parse_body buf signed ss) (fun buf => measurements_table buf signed ss)).
Proof.
  repeat apply conj; intros; (eapply reports_error;
    [first [ apply C73_get_version | apply C73_version | apply C73_get_capabilities | apply C73_capabilities | apply C73_negotiate_algorithms
      | apply C73_algorithms | apply C73_get_digests | apply C73_digests; assumption | apply C73_get_certificate | apply C73_certificate
      | apply C73_certificate_chain | apply C73_challenge | apply C73_challenge_auth | apply C73_error | apply C73_get_measurements | apply C73_measurements ]|]);
    auto using decides_two_reserved, decides_version, decides_flags, decides_negotiate, decides_algorithms, decides_digests, decides_get_certificate,
      decides_certificate, decides_chain, decides_challenge, decides_challenge_auth, decides_error, decides_get_measurements, decides_measurements.
Qed.
End Parsers.

Lemma one_fault {E F} (f : E -> F) t : decides t -> one (fault_of f t).
Proof.
  intros HD e e' (w & x & F1 & W1 & ->) (w' & x' & F2 & W2 & ->).
  pose proof (first_failing_unique _ _ _ F1 F2) as EQ. injection EQ as ->. pose proof (decides_first _ _ HD F2) as O. now rewrite (O x x' W1 W2).
Qed.

Section Responder.
Context {cfg : Config} {cr : Crypto}.
Lemma starts_nth a b req i d : starts_with a req -> starts_with b req -> i < length a -> i < length b -> nth i a d = nth i b d.
Proof.
  intros (r & ->) (r' & E) La Lb. rewrite <- (app_nth1 a r d La), E. now rewrite app_nth1.
Qed.
Lemma asks_certificate_one req s s' : asks_certificate req s -> asks_certificate req s' -> s = s'.
Proof.
  intros (o & l & A & _) (o' & l' & B & _). pose proof (starts_nth _ _ req 2 0%N A B) as X.
  apply X; unfold get_certificate_layout; rewrite !app_length; simpl; lia.
Qed.
Lemma asks_challenge_one req s s' : asks_challenge req s -> asks_challenge req s' -> s = s'.
Proof.
  intros (o & l & A & _) (o' & l' & B & _). pose proof (starts_nth _ _ req 2 0%N A B) as X.
  apply X; unfold challenge_layout; rewrite !app_length; simpl; lia.
Qed.
Lemma decides_checks slots rnd req room log st : decides (checks slots rnd req room log st).
Proof.
  assert (IS : forall c (e : ResponderError) t, decides t -> decides ((c, Refuse (is e)) :: t)) by (intros; now apply decides_or).
  assert (CR : forall c (t : list (check ResponderError)), decides t -> decides ((c, Crash) :: t)) by (intros; now apply decides_crash).
  assert (FO : forall c E (f : E -> ResponderError) tb t, decides tb -> decides t -> decides ((c, Refuse (fault_of f tb)) :: t)).
  { intros c E f tb t H1 H2. constructor; [now apply one_fault|exact H2]. }
  assert (OW : forall c (why : ResponderError -> Prop) t, one why -> decides t -> decides ((c, Refuse why) :: t)) by (intros; now constructor).
  assert (V : decides (version_checks req room)) by (apply FO; [apply decides_two_reserved|]; repeat apply IS; apply decides_nil).
  assert (G : decides (capabilities_checks req room log)) by (apply FO; [apply decides_flags|]; repeat apply IS; apply decides_nil).
  assert (AL : decides (algorithms_checks req room log)) by (apply FO; [apply decides_negotiate|]; apply IS, CR, IS, decides_nil).
  assert (DG : forall h, decides (digests_checks slots req room log h)).
  { intros h. unfold digests_checks. apply OW; [|apply CR, OW; [|apply IS, decides_nil]].
    - intros e e' (i & c & A & B & ->) (j & c' & A' & B' & ->).
      assert (i = j) as ->.
      { destruct (Nat.lt_trichotomy i j) as [L|[L|L]]; [|exact L|].
        - destruct (B' i L). exists c. exact A.
        - destruct (B j L). exists c'. exact A'. }
      congruence.
    - intros e e' (i & c & A & NF & B & ->) (j & c' & A' & NF' & B' & ->).
      assert (i = j) as ->.
      { destruct (Nat.lt_trichotomy i j) as [L|[L|L]]; [|exact L|].
        - destruct NF. eapply B'; eauto.
        - destruct NF'. eapply B; eauto. }
      congruence. }
  assert (CT : decides (certificate_checks slots req room log)).
  { unfold certificate_checks. apply FO; [apply decides_get_certificate|]. apply IS, OW; [|apply IS, decides_nil].
    intros e e' (s & c & A & B & ->) (s' & c' & A' & B' & ->). rewrite (asks_certificate_one _ _ _ A A') in B. congruence. }
  assert (CH : forall s, decides (challenge_checks slots rnd req room log s)).
  { intros s. unfold challenge_checks. cbv zeta. apply CR, CR, FO; [apply decides_challenge|]. apply IS, OW.
    - intros e e' (i & f & A & B & ->) (i' & f' & A' & B' & ->). rewrite (asks_challenge_one _ _ _ A A') in B. unfold slot_filled in *. congruence.
    - repeat first [apply IS|apply CR]; apply decides_nil. }
  unfold checks. destruct st as [| |s|s|s|s]; [apply CR, decides_nil|..]; apply CR, IS, IS; destruct (code req =? 0x84)%N;
    first [exact V|exact G|exact AL|apply CH|apply decides_nil|destruct (code req =? 0x81)%N; [apply DG|exact CT]].
Qed.
(** The responder's call fails with [e] exactly when the first failing check names [e]. *)
Theorem C54_error_iff slots R rnd req rsp st e : setting slots -> reached slots R -> bytes req -> rnd_ok rnd -> rsp_state R = Some st ->
  ((exists out rsp' R', responder_handle_msg R rnd req rsp = (Replied out (Err e), rsp', R')) <->
   exists why, first_failing (checks slots rnd req (length rsp) (t_get (rsp_transcript R)) st) (Refuse why) /\ why e).
Proof.
  intros HS HR HB RK ES. split.
  - intros (out & rsp' & R' & E1). destruct (outcome_total slots R rnd req rsp st HS HR HB RK ES) as (v & F & M). rewrite E1 in M. cbn [fst] in M.
    destruct v as [|why|]; simpl in M; try contradiction. eauto.
  - intros (why & F & W). pose proof (C54_verdict slots R rnd req rsp st _ HS HR HB RK ES F) as M.
    pose proof (decides_first _ _ (decides_checks _ _ _ _ _ _) F) as O.
    destruct (responder_handle_msg R rnd req rsp) as [[[out [[]|e'|p]|p] rsp'] R']; simpl in M; try contradiction.
    rewrite (O e e' W M). eauto.
Qed.
End Responder.

Section Requester.
Context {cfg : Config} {cr : Crypto}.
Lemma says_versions_one rsp es es' : bytes rsp -> says_versions rsp es -> says_versions rsp es' -> es = es'.
Proof.
  intros HB A B.
  assert (HD : exists rest, rsp = [0x10; 0x04]%N ++ rest) by (destruct A as ((r & ->) & _); rewrite <- app_assoc; eauto).
  destruct HD as (rest & E0). assert (HBr : bytes rest) by (rewrite E0 in HB; now apply bytes_app in HB).
  assert (X : forall l, says_versions rsp l -> version_parse_body rest = Ok (mkVersion (N.of_nat (length l)) (l ++ repeat (mkVE 0 0 0 0) (2 - length l)))).
  { intros l ((r & E1) & F & L). rewrite E0, <- app_assoc in E1. apply app_inv_head in E1. apply C07_version_parse; [exact HBr|].
    exists (version_body l), r. split; [exact E1|]. exists l. split; [split; [exact L|split; reflexivity]|]. auto. }
  pose proof (X es A) as X1. rewrite (X es' B) in X1. injection X1 as E1 E2. apply Nat2N.inj in E1. rewrite E1 in E2. symmetry. now apply app_inv_tail in E2.
Qed.
Lemma decides_hear root rsp log st : bytes rsp -> decides (hear_checks root rsp log st).
Proof.
  intros HB.
  assert (IS : forall c (e : RequesterError) t, decides t -> decides ((c, Refuse (is e)) :: t)) by (intros; now apply decides_or).
  assert (CR : forall c (t : list (check RequesterError)), decides t -> decides ((c, Crash) :: t)) by (intros; now apply decides_crash).
  assert (FO : forall c E (f : E -> RequesterError) tb t, decides tb -> decides t -> decides ((c, Refuse (fault_of f tb)) :: t)).
  { intros c E f tb t H1 H2. constructor; [now apply one_fault|exact H2]. }
  assert (OW : forall c (why : RequesterError -> Prop) t, one why -> decides t -> decides ((c, Refuse why) :: t)) by (intros; now constructor).
  unfold hear_checks. destruct st as [| |s|s|s|s|]; try (now apply CR, decides_nil); apply CR, IS, IS.
  - unfold hear_version. apply FO; [apply decides_version|]. apply OW; [|apply IS, decides_nil].
    intros e e' (v & es & A & (_ & N1 & N2) & ->) (v' & es' & A' & (_ & N1' & N2') & ->). rewrite (says_versions_one rsp es es' HB A A') in *.
    f_equal. destruct v, v'; cbn in *. congruence.
  - unfold hear_capabilities. repeat first [apply IS|apply CR]; apply decides_nil.
  - unfold hear_algorithms. apply FO; [apply decides_algorithms|]. repeat first [apply IS|apply CR]; apply decides_nil.
  - destruct (qi_digests s).
    + unfold hear_certificate. apply FO; [apply decides_certificate|]. apply IS, decides_nil.
    + unfold hear_digests. apply CR, FO; [apply decides_digests|]. apply IS, decides_nil.
  - unfold hear_auth. cbv zeta. apply CR, CR, CR, OW.
    { intros e e' (ss & S1 & A) (ss' & S2 & B). rewrite S1 in S2. injection S2 as ->. eapply one_fault; [|exact A|exact B]. apply decides_challenge_auth. }
    do 6 (first [apply IS|apply CR]). apply CR, FO; [apply decides_chain|]. repeat first [apply IS|apply CR]; apply decides_nil.
Qed.
Theorem C59_error_iff root R rsp st e : req_setting -> req_reached root R -> bytes rsp -> req_state R = Some st ->
  ((exists R', requester_handle_msg R rsp = (Err e, R')) <->
   exists why, first_failing (hear_checks root rsp (t_get (req_transcript R)) st) (Refuse why) /\ why e).
Proof.
  intros HS HR HB ES. split; [now apply C59_fails_iff|]. intros (why & F & W).
  destruct (hear_total root R rsp st HS HR HB ES) as (v & F' & M). rewrite (first_failing_unique _ _ _ F' F) in M.
  pose proof (decides_first _ _ (decides_hear root rsp _ st HB) F) as O.
  destruct (requester_handle_msg R rsp) as [[b|e'|p] R']; simpl in M; try contradiction. rewrite (O e e' W M). eauto.
Qed.
Theorem C59_ask_error_iff root R fresh buf st e : req_setting -> req_reached root R -> fresh_ok fresh -> req_state R = Some st ->
  ((exists buf' R', requester_next_request R fresh buf = (Err e, buf', R')) <->
   exists why, first_failing (ask_checks (length buf) (t_get (req_transcript R)) st) (Refuse why) /\ why e).
Proof.
  intros HS HR FO ES. destruct (ask_total root R fresh buf st HS HR FO ES) as (v & F & M). split.
  - intros (buf' & R' & E1). rewrite E1 in M. cbn [fst] in M. destruct v as [|why|]; simpl in M; try contradiction. eauto.
  - intros (why & F' & W). rewrite (first_failing_unique _ _ _ F F') in M.
    assert (HD : decides (ask_checks (length buf) (t_get (req_transcript R)) st)).
    { unfold ask_checks. destruct st as [| |s|s|s|s|]; try (destruct (qi_digests s)); unfold sends; repeat constructor; apply one_is. }
    pose proof (decides_first _ _ HD F') as O.
    destruct (requester_next_request R fresh buf) as [[[b|e'|p] buf'] R']; simpl in M; try contradiction. rewrite (O e e' W M). eauto.
Qed.
End Requester.

(** The writers whose errors differ. *)
Definition writer_fails_exactly {E} (wr : list N -> res E nat * list N) (table : nat -> list (check E)) : Prop :=
  forall buf e, fst (wr buf) = Err e <-> exists why, first_failing (table (length buf)) (Refuse why) /\ why e.
Lemma writer_error {E} (wr : list N -> res E nat * list N) table size : writer_reports wr table size -> (forall room, decides (table room)) -> writer_fails_exactly wr table.
Proof.
  intros R HD buf e. destruct (R buf) as ((v & F) & EN). destruct (EN v F) as [X _]. split.
  - intros E1. rewrite E1 in X. destruct v as [|why|]; try destruct X. exists why. auto.
  - intros (why & F1 & W). pose proof (decides_first _ _ (HD _) F1) as O. destruct (EN _ F1) as [X1 _]. destruct (fst (wr buf)) as [a|e'|p]; try destruct X1.
    f_equal. now apply O.
Qed.
Section Writers.
Context {cfg : Config}.
Lemma decides_elements_write room d : forall k, decides (elements_write_table room d k).
Proof. induction d as [|e d IH]; intros k; cbn [elements_write_table]; decide_table; auto. Qed.
Lemma decides_blocks_write {E} room (full : E) bl : forall k, decides (blocks_write_table room full bl k).
Proof. induction bl as [|e d IH]; intros k; cbn [blocks_write_table]; decide_table; auto. Qed.
Theorem C74_error_iff :
  (forall c, writer_fails_exactly (write_on (chain_write c)) (fun room => chain_write_table room c)) /\
  (forall d, writer_fails_exactly (write_on (od_write d ;;; w_offset)) (fun room => opaque_write_table room d 0)) /\
  (forall m, writer_fails_exactly (write_challenge_auth m) (fun room => challenge_auth_write_table room m)) /\
  (forall m, writer_fails_exactly (write_get_measurements m) (fun room => get_measurements_write_table room m)) /\
  (forall m, writer_fails_exactly (write_measurements m) (fun room => measurements_write_table room m)).
Proof.
  repeat apply conj; intros x; (eapply writer_error;
    [first [apply C74_certificate_chain|apply C74_opaque_data|apply C74_challenge_auth|apply C74_get_measurements|apply C74_measurements]|intros room]).
  - unfold chain_write_table. decide_table.
  - unfold opaque_write_table. decide_table. apply decides_elements_write.
  - unfold challenge_auth_write_table. cbv zeta. decide_table; auto using decides_elements_write.
  - unfold get_measurements_write_table, index_rows. decide_table.
  - unfold measurements_write_table. cbv zeta. decide_table; auto using decides_elements_write, decides_blocks_write.
Qed.
End Writers.

#[local] Existing Instance sample_cfg.
#[local] Existing Instance sample_crypto.
(** A fresh responder gets GET_VERSION with a wrong reserved byte: the error is
    the reader's ReservedByteNotZero, read off the tables. *)
Example C54_error_example : exists out rsp' R',
  responder_handle_msg (responder_new sample_slots) (sample_rnd 1) [0x10; 0x84; 0; 1]%N (repeat 0%N 10) =
  (Replied out (Err (RspRead ReservedByteNotZero)), rsp', R').
Proof.
  apply (C54_error_iff sample_slots _ _ _ _ RspVersion).
  - exact sample_setting.
  - exists []. split; [constructor|reflexivity].
  - apply bytes_check; vm_compute; reflexivity.
  - split; [reflexivity|apply bytes_repeat; reflexivity].
  - reflexivity.
  - exists (fault_of RspRead (two_reserved_table [0; 1]%N)). split.
    + apply holds_here; [simpl; lia|]. apply holds_here; [simpl; auto|]. apply holds_here; [simpl; auto|]. apply fails_here. intros (r & X). discriminate.
    + exists (is ReservedByteNotZero), ReservedByteNotZero. split; [|split; reflexivity].
      unfold two_reserved_table, rsvd. cbn [seq flat_map has app].
      apply holds_here; [simpl; lia|]. apply holds_here; [reflexivity|]. apply holds_here; [simpl; lia|]. apply fails_here. discriminate.
Qed.
(** A fresh requester gets VERSION with three entries. *)
Example C59_error_example : exists R', requester_handle_msg sample_q0 [0x10; 0x04; 0; 0; 0; 3; 0; 0x11]%N = (Err (ReqParseVersion TooManyVersionsReceived), R').
Proof.
  apply (C59_error_iff [1; 2; 3]%N _ _ ReqVersion).
  - exact sample_req_setting.
  - exists []. split; [constructor|reflexivity].
  - apply bytes_check; vm_compute; reflexivity.
  - reflexivity.
  - exists (fault_of ReqParseVersion (version_table [0; 0; 0; 3; 0; 0x11]%N)). split.
    + apply holds_here; [simpl; lia|]. apply holds_here; [reflexivity|]. apply holds_here; [reflexivity|]. apply fails_here.
      intros (es & (r & X) & _ & L). unfold version_body in X. apply (f_equal (fun l => nth 5 l 0%N)) in X. cbn [nth] in X.
      destruct es as [|a [|b [|c l]]]; try discriminate. simpl in L. lia.
    + exists (is TooManyVersionsReceived), TooManyVersionsReceived. split; [|split; reflexivity].
      unfold version_table, rsvd, has. cbn [seq flat_map has app].
      do 7 (apply holds_here; [first [reflexivity|simpl; lia]|]). apply fails_here. intros X. apply N.leb_le in X. discriminate.
Qed.
Print Assumptions C54_error_iff.
Print Assumptions C59_error_iff.
Print Assumptions C73_error_iff.
Print Assumptions C74_error_iff.
