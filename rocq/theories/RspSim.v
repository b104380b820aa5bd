(** Relational facts about the responder's handlers, whatever their outcome:
    they depend on the transcript's contents only, keep it well-formed, and keep
    the length of the response buffer. *)
From Verif Require Import Base BaseLemmas Config Encoding MsgCommon MsgVersion MsgCapabilities MsgAlgorithms MsgDigest
     MsgCertificates MsgChallenge MsgError Transcript Crypto Responder WriterLogic WriterSafe PropTranscript.

Section Sim.
Context {cfg : Config} {cr : Crypto}.
Definition csim (c1 c2 : Ctx) : Prop :=
  c_rsp c1 = c_rsp c2 /\ t_wf (c_tr c1) /\ t_wf (c_tr c2) /\ t_get (c_tr c1) = t_get (c_tr c2).
Definition hsim {A} (m : H A) : Prop := forall c1 c2, csim c1 c2 ->
  fst (m c1) = fst (m c2) /\ csim (snd (m c1)) (snd (m c2)) /\ length (c_rsp (snd (m c1))) = length (c_rsp c1).

Lemma hsim_bind {A B} (m : H A) (k : A -> H B) : hsim m -> (forall a, hsim (k a)) -> hsim (bind m k).
Proof.
  intros Hm Hk c1 c2 S. destruct (Hm c1 c2 S) as (E1 & S1 & L1). unfold bind.
  destruct (m c1) as [r1 d1], (m c2) as [r2 d2]. simpl in *. subst r2. destruct r1 as [a|e|p]; simpl; auto.
  destruct (Hk a d1 d2 S1) as (E2 & S2 & L2). rewrite L2. auto.
Qed.
Lemma hsim_pure {A} (r : res ResponderError A) : hsim (fun c => (r, c)).
Proof. intros c1 c2 S. simpl. auto. Qed.
Lemma hsim_ret {A} (a : A) : hsim (ret a). Proof. apply hsim_pure. Qed.
Lemma hsim_err {A} e : hsim (A := A) (err e). Proof. apply hsim_pure. Qed.
Lemma hsim_pnc {A} p : hsim (A := A) (pnc p). Proof. apply hsim_pure. Qed.
Lemma hsim_lift {A} (r : res ResponderError A) : hsim (lift r). Proof. apply hsim_pure. Qed.
Lemma hsim_map_err_lift {E A} (f : E -> ResponderError) (r : res E A) : hsim (map_err f (lift r)).
Proof. intros c1 c2 S. unfold map_err, lift. destruct r; simpl; auto. Qed.
Lemma hsim_extend bs : hsim (c_extend bs).
Proof.
  intros [r1 t1] [r2 t2] (E1 & W1 & W2 & G). cbn [c_rsp c_tr] in *. subst r2. unfold c_extend, map_err. cbn [c_rsp c_tr].
  destruct (t_extend_spec t1 bs W1) as [A1 A2]. destruct (t_extend_spec t2 bs W2) as [B1 B2].
  assert (L : t_len t1 = t_len t2) by (rewrite <- !t_get_length by auto; congruence).
  destruct (Nat.le_gt_cases (t_len t1 + length bs) TRANSCRIPT_SIZE) as [X|X].
  - destruct (A1 X) as (t1' & -> & V1 & V2 & _). destruct (B1 ltac:(lia)) as (t2' & -> & U1 & U2 & _).
    simpl. split; [auto|]. split; [|auto]. split; [auto|]. cbn [c_tr]. rewrite V2, U2, G. auto.
  - rewrite (A2 X), (B2 ltac:(lia)). simpl. split; [auto|]. split; [|auto]. split; auto.
Qed.
Lemma hsim_clear : hsim c_clear.
Proof.
  intros [r1 t1] [r2 t2] (E1 & W1 & W2 & G). cbn [c_rsp c_tr] in *. subst r2. unfold c_clear. simpl.
  destruct (t_clear_spec t1 W1) as (A1 & A2 & _). destruct (t_clear_spec t2 W2) as (B1 & B2 & _).
  split; [auto|]. split; [|auto]. split; [auto|]. simpl. rewrite A2, B2. auto.
Qed.
Lemma hsim_write {E} (from : E -> ResponderError) id ff body : wsafe 1 body /\ woff body ->
  hsim (c_write from (write_msg id ff body)).
Proof.
  intros WS [r1 t1] [r2 t2] (E1 & W1 & W2 & G). cbn [c_rsp c_tr] in *. subst r2. unfold c_write. cbn [c_rsp c_tr].
  destruct (write_msg id ff body r1) as [r out] eqn:EW. pose proof (write_msg_safe _ _ _ _ _ _ WS EW) as (L & _).
  simpl. split; [auto|]. split; [|auto]. split; auto.
Qed.
Lemma hsim_prefix n : hsim (c_prefix n).
Proof. intros c1 c2 S. unfold c_prefix. destruct S as (E1 & S). rewrite E1. destruct (n <=? _); simpl; (split; [|split]); auto; [split; auto|congruence|split; auto|congruence]. Qed.
Lemma hsim_gets : hsim (gets (fun c => t_get (c_tr c))).
Proof. intros c1 c2 S. unfold gets. simpl. split; [|auto]. destruct S as (_ & _ & _ & ->). reflexivity. Qed.
Lemma hsim_copy from to src : hsim (c_copy from to src).
Proof.
  intros c1 c2 S. unfold c_copy. destruct S as (E1 & S). rewrite E1.
  destruct (_ && _) eqn:EC; simpl; (split; [auto|]); (split; [split; auto|]); [|congruence].
  rewrite !andb_true_iff, Nat.eqb_eq, !Nat.leb_le in EC. destruct EC as [[C1 C2] C3].
  rewrite !app_length, firstn_length, skipn_length. lia.
Qed.
Create HintDb hsim.
Hint Resolve hsim_ret hsim_err hsim_pnc hsim_lift hsim_map_err_lift hsim_extend hsim_clear hsim_prefix hsim_gets hsim_copy : hsim.
Hint Resolve wb_version wb_capabilities wb_algorithms wb_digests wb_certificate wb_challenge_auth : hsim.
Hint Resolve hsim_write : hsim.
Ltac hs := repeat (first [apply hsim_bind; [solve [auto with hsim]|intros] | solve [auto with hsim]
  | match goal with |- hsim (match ?x with _ => _ end) => destruct x end]).

Lemma hsim_version req : hsim (version_handle_msg req).
Proof. unfold version_handle_msg, handle_get_version. hs. Qed.
Lemma hsim_reset req m : hsim m -> hsim (reset_on_get_version req m).
Proof. intros Hm. unfold reset_on_get_version. pose proof (hsim_version req). hs; auto. Qed.
Lemma hsim_dispatch st slots rnd req : hsim (rsp_dispatch st slots rnd req).
Proof.
  destruct st as [| |s|s|s|s]; cbn [rsp_dispatch].
  - auto with hsim.
  - apply hsim_version.
  - apply hsim_reset. hs.
  - apply hsim_reset. hs.
  - apply hsim_reset. apply hsim_bind; [auto with hsim|]. intros [|].
    + unfold handle_get_digests. hs.
    + unfold handle_get_certificate. hs.
  - apply hsim_reset. hs. apply hsim_bind; [destruct (_ <? _); auto with hsim|]. intros. hs.
Qed.
End Sim.
