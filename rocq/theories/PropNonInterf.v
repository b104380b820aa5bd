(** C53: nothing a responder or requester says, decides or remembers depends on
    what the caller's output buffer contained before the call. *)
From Verif Require Import Base BaseLemmas Config Encoding MsgCommon MsgVersion MsgCapabilities MsgAlgorithms MsgDigest
     MsgCertificates MsgChallenge MsgError Transcript Crypto Responder Requester WriterLogic WriterSafe SpecWire SpecResponder
     SpecRequester NonInterf Sample SampleRun SampleReq.

Section Handlers.
Context {cfg : Config} {cr : Crypto}.
Variables b1 b2 : list N.
Hypothesis Hlen : length b1 = length b2.
#[local] Hint Resolve wb_version wb_capabilities wb_algorithms wb_digests wb_certificate wb_challenge_auth wb_error
  wb_get_version wb_get_capabilities wb_negotiate wb_get_digests wb_get_certificate wb_challenge : wsim.

(** * Responder *)
Definition crel (k : nat) (c1 c2 : Ctx) : Prop := c_tr c1 = c_tr c2 /\ overwritten k b1 b2 (c_rsp c1) (c_rsp c2).
(** From contexts that agree on [k] bytes: same outcome, and contexts that agree on [post a] bytes on success [a]. *)
Definition rsim {A} (k : nat) (m : H A) (post : A -> nat) : Prop := forall c1 c2, crel k c1 c2 ->
  fst (m c1) = fst (m c2) /\ crel 0 (snd (m c1)) (snd (m c2)) /\
  forall a, fst (m c1) = Ok a -> crel (post a) (snd (m c1)) (snd (m c2)).
Lemma crel_weaken k k' c1 c2 : k' <= k -> crel k c1 c2 -> crel k' c1 c2.
Proof. intros L [E O]. split; [exact E|]. eapply over_weaken; eauto. Qed.
Lemma rsim_bind {A B} k (m : H A) (f : A -> H B) post1 post : rsim k m post1 -> (forall a, rsim (post1 a) (f a) post) -> rsim k (bind m f) post.
Proof.
  intros Hm Hf c1 c2 R. destruct (Hm _ _ R) as (E1 & R0 & R1). unfold bind. destruct (m c1) as [r1 d1], (m c2) as [r2 d2]. cbn [fst snd] in *. subst r2.
  destruct r1 as [a|e|p]; cbn [fst snd]; [apply Hf; auto| |]; (split; [reflexivity|]; split; [exact R0|discriminate]).
Qed.
Lemma rsim_pure {A} k (r : res ResponderError A) : rsim k (fun c => (r, c)) (fun _ => k).
Proof. intros c1 c2 R. split; [reflexivity|]. split; [now apply (crel_weaken k); [lia|]|]. intros; exact R. Qed.
Lemma rsim_lift {A} k (r : res ResponderError A) : rsim k (lift r) (fun _ => k). Proof. apply rsim_pure. Qed.
Lemma rsim_map_err_lift {E A} k (f : E -> ResponderError) (r : res E A) : rsim k (map_err f (lift r)) (fun _ => k).
Proof. unfold map_err, lift. destruct r; apply rsim_pure. Qed.
Lemma rsim_post {A} k (m : H A) post post' : (forall a, post' a <= post a) -> rsim k m post -> rsim k m post'.
Proof. intros L Hm c1 c2 R. destruct (Hm _ _ R) as (E1 & R0 & R1). split; [auto|]. split; [auto|]. intros a Ha. eapply crel_weaken; [apply L|auto]. Qed.
Lemma rsim_pre {A} k k' (m : H A) post : k <= k' -> rsim k m post -> rsim k' m post.
Proof. intros L Hm c1 c2 R. apply Hm. eapply crel_weaken; eauto. Qed.
Lemma rsim_err {A} k e post : rsim (A := A) k (err e) post.
Proof. intros c1 c2 R. split; [reflexivity|]. split; [now apply (crel_weaken k); [lia|]|]. intros; discriminate. Qed.
Lemma rsim_pnc {A} k p post : rsim (A := A) k (pnc p) post.
Proof. intros c1 c2 R. split; [reflexivity|]. split; [now apply (crel_weaken k); [lia|]|]. intros; discriminate. Qed.
Lemma rsim_ret k n (st : RspStates) : n <= k -> rsim k (ret (n, st)) fst.
Proof. intros L c1 c2 R. split; [reflexivity|]. split; [now apply (crel_weaken k); [lia|]|]. intros a [= <-]. now apply (crel_weaken k). Qed.
Lemma rsim_extend k bs : rsim k (c_extend bs) (fun _ => k).
Proof.
  intros c1 c2 R. destruct R as [E O]. unfold c_extend. rewrite <- E. destruct (map_err rsp_of_full (t_extend bs) (c_tr c1)) as [r t].
  cbn [fst snd]. split; [reflexivity|]. split; [split; [reflexivity|]; now apply (over_weaken b1 b2 Hlen k); [lia|]|]. intros; split; [reflexivity|exact O].
Qed.
Lemma rsim_clear k : rsim k c_clear (fun _ => k).
Proof.
  intros c1 c2 R. destruct R as [E O]. unfold c_clear. rewrite <- E.
  cbn [fst snd]. split; [reflexivity|]. split; [split; [reflexivity|]; now apply (over_weaken b1 b2 Hlen k); [lia|]|]. intros; split; [reflexivity|exact O].
Qed.
Lemma rsim_write {E} k (from : E -> ResponderError) id ff body : wsim b1 b2 body -> wsafe 1 body /\ woff body ->
  rsim k (c_write from (write_msg id ff body)) (fun n => n).
Proof.
  intros WS [_ WO] c1 c2 [ET O]. destruct (write_msg_over b1 b2 Hlen k id ff body _ _ WS WO O) as (E1 & O0 & O1).
  unfold c_write. destruct (write_msg id ff body (c_rsp c1)) as [r1 x1], (write_msg id ff body (c_rsp c2)) as [r2 x2]. cbn [fst snd] in *. subst r2.
  split; [reflexivity|]. split; [split; [exact ET|exact O0]|]. intros n Hn. split; [exact ET|]. apply O1. destruct r1; simpl in Hn; congruence.
Qed.
Lemma rsim_prefix k n : n <= k -> rsim k (c_prefix n) (fun _ => k).
Proof.
  intros L c1 c2 [ET O]. unfold c_prefix. pose proof (over_length b1 b2 Hlen _ _ _ O) as (L1 & L2 & L3).
  assert (R0 : crel 0 c1 c2) by (split; [auto|]; now apply (over_weaken b1 b2 Hlen k); [lia|]).
  destruct (Nat.leb_spec n (length (c_rsp c1))); [|lia]. destruct (Nat.leb_spec n (length (c_rsp c2))); [|lia].
  rewrite (over_firstn b1 b2 Hlen _ _ _ _ O L). split; [reflexivity|]. split; [exact R0|]. intros; split; auto.
Qed.
Lemma rsim_gets k : rsim k (gets (fun c => t_get (c_tr c))) (fun _ => k).
Proof.
  intros c1 c2 [ET O]. unfold gets. cbn [fst snd]. rewrite ET. split; [reflexivity|].
  split; [split; [auto|]; now apply (over_weaken b1 b2 Hlen k); [lia|]|]. intros; split; auto.
Qed.
Lemma rsim_copy k from to src : to <= k -> rsim k (c_copy from to src) (fun _ => k).
Proof.
  intros L c1 c2 [ET O]. unfold c_copy. pose proof (over_length b1 b2 Hlen _ _ _ O) as (L1 & L2 & L3). rewrite L1, L2.
  assert (R0 : crel 0 c1 c2) by (split; [auto|]; now apply (over_weaken b1 b2 Hlen k); [lia|]).
  destruct (_ && _) eqn:EC; cbn [fst snd]; [|split; [reflexivity|]; split; [exact R0|discriminate]].
  rewrite !andb_true_iff, Nat.eqb_eq, !Nat.leb_le in EC. destruct EC as [[C1 C2] C3].
  assert (X : overwritten k b1 b2 (firstn from (c_rsp c1) ++ src ++ skipn to (c_rsp c1)) (firstn from (c_rsp c2) ++ src ++ skipn to (c_rsp c2))).
  { replace to with (from + length src) by lia. apply (over_weaken b1 b2 Hlen (Nat.max k (from + length src))); [lia|].
    apply over_splice; [exact Hlen|exact O|lia|lia]. }
  split; [reflexivity|]. split; [split; [exact ET|]; now apply (over_weaken b1 b2 Hlen k); [lia|]|]. intros; split; [exact ET|exact X].
Qed.
Lemma rsim_guard k (b : bool) p : rsim k (if b then pnc p else ret tt) (fun _ => k).
Proof. destruct b; [apply rsim_pnc|]. apply (rsim_pure k (Ok tt)). Qed.
Ltac rs1 := first
  [ apply rsim_err | apply rsim_pnc
  | apply rsim_ret; lia
  | eapply rsim_bind; [first [apply rsim_lift | apply rsim_map_err_lift | apply rsim_extend | apply rsim_clear | apply rsim_gets | apply rsim_guard
      | apply rsim_write; auto with wsim | apply rsim_prefix; lia | apply rsim_copy; lia]|intros; cbv beta]
  | match goal with |- rsim _ (match ?x with _ => _ end) _ => destruct x end ].
Ltac rs := repeat rs1.

Lemma rsim_version k req : rsim k (version_handle_msg req) fst.
Proof. unfold version_handle_msg, handle_get_version. rs. Qed.
Lemma rsim_reset k req m : rsim k m fst -> rsim k (reset_on_get_version req m) fst.
Proof. intros Hm. unfold reset_on_get_version. pose proof (rsim_version k req). destruct (parse_header GetVersion_id req) as [[]|e|p]; auto; rs. Qed.
Lemma rsim_dispatch k st slots rnd req : rsim k (rsp_dispatch st slots rnd req) fst.
Proof.
  destruct st as [| |s|s|s|s]; cbn [rsp_dispatch].
  - rs.
  - apply rsim_version.
  - apply rsim_reset. rs.
  - apply rsim_reset. rs.
  - apply rsim_reset. eapply rsim_bind; [apply rsim_map_err_lift|]. intros [|].
    + unfold handle_get_digests. rs.
    + unfold handle_get_certificate. rs.
  - apply rsim_reset. rs.
Qed.
(** * Requester *)
Definition qrel (k : nat) (c1 c2 : QCtx) : Prop := q_tr c1 = q_tr c2 /\ q_state c1 = q_state c2 /\ overwritten k b1 b2 (q_buf c1) (q_buf c2).
Definition qsim {A} (k : nat) (m : Q A) (post : A -> nat) : Prop := forall c1 c2, qrel k c1 c2 ->
  fst (m c1) = fst (m c2) /\ qrel 0 (snd (m c1)) (snd (m c2)) /\
  forall a, fst (m c1) = Ok a -> qrel (post a) (snd (m c1)) (snd (m c2)).
Lemma qrel_weaken k k' c1 c2 : k' <= k -> qrel k c1 c2 -> qrel k' c1 c2.
Proof. intros L (E & S & O). split; [exact E|]. split; [exact S|]. eapply over_weaken; eauto. Qed.
Lemma qsim_bind {A B} k (m : Q A) (f : A -> Q B) post1 post : qsim k m post1 -> (forall a, qsim (post1 a) (f a) post) -> qsim k (bind m f) post.
Proof.
  intros Hm Hf c1 c2 R. destruct (Hm _ _ R) as (E1 & R0 & R1). unfold bind. destruct (m c1) as [r1 d1], (m c2) as [r2 d2]. cbn [fst snd] in *. subst r2.
  destruct r1 as [a|e|p]; cbn [fst snd]; [apply Hf; auto| |]; (split; [reflexivity|]; split; [exact R0|discriminate]).
Qed.
Lemma qsim_pure {A} k (r : res RequesterError A) : qsim k (fun c => (r, c)) (fun _ => k).
Proof. intros c1 c2 R. split; [reflexivity|]. split; [now apply (qrel_weaken k); [lia|]|]. intros; exact R. Qed.
Lemma qsim_end {A} k (r : res RequesterError A) : qsim k (fun c => (r, c)) (fun _ => 0).
Proof. intros c1 c2 R. split; [reflexivity|]. assert (qrel 0 c1 c2) by (now apply (qrel_weaken k); [lia|]). split; auto. Qed.
Lemma qsim_step {A} k (f : QCtx -> Transcript) (g : QCtx -> ReqStates) (r : QCtx -> res RequesterError A) :
  (forall c1 c2, q_tr c1 = q_tr c2 -> q_state c1 = q_state c2 -> f c1 = f c2 /\ g c1 = g c2 /\ r c1 = r c2) ->
  qsim k (fun c => (r c, mkQCtx (q_buf c) (f c) (g c))) (fun _ => k).
Proof.
  intros Hf c1 c2 (E & S & O). destruct (Hf c1 c2 E S) as (F & G & RR). cbn [fst snd]. split; [exact RR|].
  split; [split; [exact F|split; [exact G|]]; now apply (over_weaken b1 b2 Hlen k); [lia|]|]. intros. split; [exact F|]. split; [exact G|exact O].
Qed.
Lemma qsim_extend k bs : qsim k (q_extend bs) (fun _ => k).
Proof.
  intros c1 c2 (E & S & O). unfold q_extend. rewrite <- E. destruct (map_err req_of_full (t_extend bs) (q_tr c1)) as [r t]. cbn [fst snd].
  split; [reflexivity|]. split; [split; [reflexivity|split; [exact S|]]; now apply (over_weaken b1 b2 Hlen k); [lia|]|].
  intros. split; [reflexivity|]. split; [exact S|exact O].
Qed.
Lemma qsim_clear k : qsim k q_clear (fun _ => k).
Proof. apply (qsim_step k (fun c => t_clear (q_tr c)) q_state (fun _ => Ok tt)). intros c1 c2 -> ->. auto. Qed.
Lemma qsim_set k st : qsim k (q_set st) (fun _ => k).
Proof. apply (qsim_step k q_tr (fun _ => st) (fun _ => Ok tt)). intros c1 c2 -> _. auto. Qed.
Lemma qsim_write {E} k (from : E -> RequesterError) id ff body : wsim b1 b2 body -> wsafe 1 body /\ woff body ->
  qsim k (q_write from (write_msg id ff body)) (fun n => n).
Proof.
  intros WS [_ WO] c1 c2 (ET & ES & O). destruct (write_msg_over b1 b2 Hlen k id ff body _ _ WS WO O) as (E1 & O0 & O1).
  unfold q_write. destruct (write_msg id ff body (q_buf c1)) as [r1 x1], (write_msg id ff body (q_buf c2)) as [r2 x2]. cbn [fst snd] in *. subst r2.
  split; [reflexivity|]. split; [split; [exact ET|split; [exact ES|exact O0]]|]. intros n Hn. split; [exact ET|]. split; [exact ES|].
  apply O1. destruct r1; simpl in Hn; congruence.
Qed.
Lemma qsim_prefix k n : n <= k -> qsim k (q_prefix n) (fun _ => k).
Proof.
  intros L c1 c2 (ET & ES & O). unfold q_prefix. pose proof (over_length b1 b2 Hlen _ _ _ O) as (L1 & L2 & L3).
  assert (R0 : qrel 0 c1 c2) by (split; [auto|split; [auto|]]; now apply (over_weaken b1 b2 Hlen k); [lia|]).
  destruct (Nat.leb_spec n (length (q_buf c1))); [|lia]. destruct (Nat.leb_spec n (length (q_buf c2))); [|lia].
  rewrite (over_firstn b1 b2 Hlen _ _ _ _ O L). split; [reflexivity|]. split; [exact R0|]. intros; split; auto.
Qed.
Ltac qs := repeat first
  [ apply qsim_end
  | eapply qsim_bind; [first [apply qsim_pure | apply qsim_extend | apply qsim_clear | apply qsim_set
      | apply qsim_write; auto with wsim | apply qsim_prefix; lia]|intros; cbv beta]
  | match goal with |- qsim _ (match ?x with _ => _ end) _ => destruct x end ].
Lemma qsim_req k st fresh : qsim k (write_req st fresh) (fun _ => 0).
Proof.
  destruct st as [| |s|s|s|s|]; cbn [write_req];
  unfold write_get_version, cap_write_msg, alg_write_msg, write_get_digests_msg, write_get_certificate_msg, chal_write_msg; qs.
Qed.
End Handlers.

Section PropNonInterf.
Context {cfg : Config} {cr : Crypto}.
(** A call to handle_msg: the reply and the responder afterwards depend on the
    response buffer through its length only, and exactly the same bytes are
    written into it; the rest of it is left alone. *)
Theorem C53_responder R rnd req rsp1 rsp2 reply1 reply2 rsp1' rsp2' R1 R2 : length rsp1 = length rsp2 ->
  responder_handle_msg R rnd req rsp1 = (reply1, rsp1', R1) ->
  responder_handle_msg R rnd req rsp2 = (reply2, rsp2', R2) ->
  reply1 = reply2 /\ R1 = R2 /\
  exists written, length written <= length rsp1 /\
    rsp1' = written ++ skipn (length written) rsp1 /\ rsp2' = written ++ skipn (length written) rsp2.
Proof.
  intros L H1 H2. unfold responder_handle_msg in *. destruct (rsp_state R) as [st|].
  2: { injection H1 as <- <- <-. injection H2 as <- <- <-. split; [reflexivity|]. split; [reflexivity|]. exists []. simpl. split; [lia|auto]. }
  assert (R0 : crel rsp1 rsp2 0 (mkCtx rsp1 (rsp_transcript R)) (mkCtx rsp2 (rsp_transcript R))).
  { split; [reflexivity|]. exists []. simpl. split; [lia|]. split; [lia|auto]. }
  destruct (rsim_dispatch rsp1 rsp2 L 0 st (rsp_slots R) rnd req _ _ R0) as (E1 & RZ & RK).
  destruct (rsp_dispatch st (rsp_slots R) rnd req (mkCtx rsp1 (rsp_transcript R))) as [r c1].
  destruct (rsp_dispatch st (rsp_slots R) rnd req (mkCtx rsp2 (rsp_transcript R))) as [r2 c2]. cbn [fst snd] in *. subst r2.
  destruct RZ as [ET OZ]. pose proof (over_length rsp1 rsp2 L _ _ _ OZ) as (L1 & L2 & _). rewrite <- ET in *.
  assert (X : exists reply x1 x2 st', rsp_finish r (c_rsp c1) = (reply, x1, st') /\ rsp_finish r (c_rsp c2) = (reply, x2, st') /\
     overwritten 0 rsp1 rsp2 x1 x2).
  { destruct r as [[size st']|e|p]; cbn [rsp_finish].
    - destruct (RK (size, st') eq_refl) as [_ OS]. cbn [fst] in OS. rewrite L1, L2.
      pose proof (over_length rsp1 rsp2 L _ _ _ OS) as (_ & _ & L3). destruct (Nat.leb_spec size (length rsp1)); [|lia].
      rewrite (over_firstn rsp1 rsp2 L _ size _ _ OS) by lia. eauto 10.
    - destruct (write_msg_over rsp1 rsp2 L 0 Error_id (fun e => e) (error_write_body (responder_error_to_msg e)) _ _
         (wm_error rsp1 rsp2 L _) (proj2 (wb_error _)) OZ) as (EW & OW & OK).
      destruct (write_msg Error_id (fun e => e) (error_write_body (responder_error_to_msg e)) (c_rsp c1)) as [w x1].
      destruct (write_msg Error_id (fun e => e) (error_write_body (responder_error_to_msg e)) (c_rsp c2)) as [w2 x2]. cbn [fst snd] in *. subst w2.
      destruct w as [size|e'|p]; eauto 10. pose proof (OK size eq_refl) as OS. pose proof (over_length rsp1 rsp2 L _ _ _ OS) as (L3 & L4 & L5).
      rewrite L3, L4. destruct (Nat.leb_spec size (length rsp1)); [|lia]. rewrite (over_firstn rsp1 rsp2 L _ size _ _ OS) by lia. eauto 10.
    - eauto 10. }
  destruct X as (reply & x1 & x2 & st' & E1 & E2 & OX). rewrite E1 in H1. rewrite E2 in H2. injection H1 as <- <- <-. injection H2 as <- <- <-.
  split; [reflexivity|]. split; [reflexivity|]. destruct OX as (pre & _ & P1 & P2 & P3). exists pre. auto.
Qed.
(** So a whole history is determined by the requests, the randomness and the
    lengths of the buffers. *)
Definition same_call (c1 c2 : call) : Prop :=
  match c1, c2 with
  | CallHandle rnd1 req1 rsp1, CallHandle rnd2 req2 rsp2 => rnd1 = rnd2 /\ req1 = req2 /\ length rsp1 = length rsp2
  | CallReset, CallReset => True
  | _, _ => False
  end.
Theorem C53_responder_history R calls1 calls2 : Forall2 same_call calls1 calls2 ->
  after R calls1 = after R calls2 /\ map fst (observed R calls1) = map fst (observed R calls2).
Proof.
  intros H. revert R. induction H as [|c1 c2 l1 l2 HC _ IH]; intros R; [auto|].
  destruct c1 as [rnd req rsp1|], c2 as [rnd2 req2 rsp2|]; simpl in HC; try contradiction.
  - destruct HC as (<- & <- & L). cbn [after fold_left after_call observed]. 
    destruct (responder_handle_msg R rnd req rsp1) as [[reply1 x1] R1] eqn:E1. destruct (responder_handle_msg R rnd req rsp2) as [[reply2 x2] R2] eqn:E2.
    destruct (C53_responder _ _ _ _ _ _ _ _ _ _ _ L E1 E2) as (-> & <- & _). destruct (IH R1) as [I1 I2].
    split; [exact I1|]. cbn [map fst]. now rewrite I2.
  - cbn [after fold_left after_call observed]. apply IH.
Qed.
(** The same of next_request. *)
Theorem C53_requester R fresh buf1 buf2 r1 r2 buf1' buf2' R1 R2 : length buf1 = length buf2 ->
  requester_next_request R fresh buf1 = (r1, buf1', R1) ->
  requester_next_request R fresh buf2 = (r2, buf2', R2) ->
  r1 = r2 /\ R1 = R2 /\
  exists written, length written <= length buf1 /\
    buf1' = written ++ skipn (length written) buf1 /\ buf2' = written ++ skipn (length written) buf2.
Proof.
  intros L H1 H2. unfold requester_next_request in *.
  assert (NW : exists written : list N, length written <= length buf1 /\
    buf1 = written ++ skipn (length written) buf1 /\ buf2 = written ++ skipn (length written) buf2) by (exists []; simpl; split; [lia|auto]).
  destruct (req_state R) as [st|]; [|injection H1 as <- <- <-; injection H2 as <- <- <-; auto].
  assert (D : st = ReqNewSession \/
    ((let '(r, c) := write_req st fresh (mkQCtx buf1 (req_transcript R) st) in (r, q_buf c, mkRequester (req_root R) (q_tr c) (Some (q_state c)))) = (r1, buf1', R1) /\
     (let '(r, c) := write_req st fresh (mkQCtx buf2 (req_transcript R) st) in (r, q_buf c, mkRequester (req_root R) (q_tr c) (Some (q_state c)))) = (r2, buf2', R2)))
    by (destruct st; auto).
  destruct D as [->|[D1 D2]]. { injection H1 as <- <- <-; injection H2 as <- <- <-; auto. }
  clear H1 H2.
  assert (R0 : qrel buf1 buf2 0 (mkQCtx buf1 (req_transcript R) st) (mkQCtx buf2 (req_transcript R) st)).
  { split; [reflexivity|]. split; [reflexivity|]. exists []. simpl. split; [lia|]. split; [lia|auto]. }
  destruct (qsim_req buf1 buf2 L 0 st fresh _ _ R0) as (E1 & RZ & _).
  destruct (write_req st fresh (mkQCtx buf1 (req_transcript R) st)) as [r c1].
  destruct (write_req st fresh (mkQCtx buf2 (req_transcript R) st)) as [r' c2]. cbn [fst snd] in *. subst r'.
  injection D1 as <- <- <-. injection D2 as <- <- <-. destruct RZ as (-> & -> & pre & _ & P1 & P2 & P3).
  split; [reflexivity|]. split; [reflexivity|]. exists pre. auto.
Qed.
End PropNonInterf.

#[local] Existing Instance sample_cfg.
#[local] Existing Instance sample_crypto.
(** A buffer full of AA and one full of 55: the same reply, written over both. *)
Example C53_example :
  let R := served_R (firstn 5 sample_requests) in
  let '(reply1, rsp1, _) := responder_handle_msg R (sample_rnd 1) (sample_request 5) big_buf in
  let '(reply2, rsp2, _) := responder_handle_msg R (sample_rnd 1) (sample_request 5) (repeat 0x55%N 1200) in
  reply1 = reply2 /\ rsp1 <> rsp2 /\ (exists out, reply1 = Replied out (Ok tt) /\ length out = 170) /\
  (** ... and a failing one, in a buffer too short for the answer *)
  let '(reply3, rsp3, _) := responder_handle_msg R (sample_rnd 1) (sample_request 5) (repeat 0xAA%N 20) in
  let '(reply4, rsp4, _) := responder_handle_msg R (sample_rnd 1) (sample_request 5) (repeat 0x55%N 20) in
  reply3 = reply4 /\ exists out e, reply3 = Replied out (Err e).
Proof.
  vm_compute. repeat (split; [try reflexivity; try discriminate; try (eexists; split; reflexivity)|]).
  eexists _, _. reflexivity.
Qed.
