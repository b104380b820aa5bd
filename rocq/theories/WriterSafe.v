(** Unconditional facts about writer programs: whatever the message, only bytes
    between the starting and the final offset change. *)
From Verif Require Import Base BaseLemmas Config Encoding MsgCommon MsgVersion MsgCapabilities MsgAlgorithms MsgDigest
     MsgCertificates MsgChallenge MsgError MsgMeasurements WriterLogic.

(** Between [w] and [w'] only bytes from one offset to the other changed. *)
Definition wext (w w' : Writer) : Prop :=
  w_wf w' /\ length (w_buf w') = length (w_buf w) /\ w_off w <= w_off w' /\
  firstn (w_off w) (w_buf w') = firstn (w_off w) (w_buf w) /\
  skipn (w_off w') (w_buf w') = skipn (w_off w') (w_buf w).
(** [m] only extends, by at least [k] bytes when it succeeds. *)
Definition wsafe {E A} (k : nat) (m : M Writer E A) : Prop :=
  forall w, w_wf w -> forall r w', m w = (r, w') ->
    wext w w' /\ forall a, r = Ok a -> w_off w + k <= w_off w'.
(** A successful [m] returns the final offset. *)
Definition woff {E} (m : M Writer E nat) : Prop := forall w a w', m w = (Ok a, w') -> a = w_off w'.

Lemma wext_refl w : w_wf w -> wext w w.
Proof. unfold wext; intuition. Qed.
Lemma firstn_of_firstn {A} (n m : nat) (a b : list A) : n <= m -> firstn m a = firstn m b -> firstn n a = firstn n b.
Proof.
  intros L H. rewrite <- (Nat.min_l n m L), <- !firstn_firstn. now rewrite H.
Qed.
Lemma skipn_of_skipn {A} (n m : nat) (a b : list A) : n <= m -> skipn n a = skipn n b -> skipn m a = skipn m b.
Proof.
  intros L H. replace m with (n + (m - n)) by lia. rewrite <- !skipn_skipn'. now rewrite H.
Qed.
Lemma wext_trans a b c : wext a b -> wext b c -> wext a c.
Proof.
  intros (A1 & A2 & A3 & A4 & A5) (B1 & B2 & B3 & B4 & B5). repeat split; auto; try congruence; try lia.
  - rewrite <- A4. now apply (firstn_of_firstn _ (w_off b)).
  - rewrite B5. now apply (skipn_of_skipn (w_off b)).
Qed.

Section Rules.
Context {cfg : Config}.

Lemma wsafe_ret {E A} (a : A) : @wsafe E A 0 (ret a).
Proof. intros w Hw r w' [= <- <-]. split; [now apply wext_refl|intros; lia]. Qed.
Lemma wsafe_lift {E A} (x : res E A) : wsafe 0 (lift x).
Proof. intros w Hw r w' [= <- <-]. split; [now apply wext_refl|intros; lia]. Qed.
Lemma wsafe_err {E A} k (e : E) : @wsafe E A k (err e).
Proof. intros w Hw r w' [= <- <-]. split; [now apply wext_refl|discriminate]. Qed.
Lemma wsafe_pnc {E A} k p : @wsafe E A k (pnc p).
Proof. intros w Hw r w' [= <- <-]. split; [now apply wext_refl|discriminate]. Qed.
Lemma wsafe_offset {E} : @wsafe E nat 0 w_offset.
Proof. intros w Hw r w' [= <- <-]. split; [now apply wext_refl|intros; lia]. Qed.
Lemma wsafe_weaken {E A} k k' (m : M Writer E A) : k' <= k -> wsafe k m -> wsafe k' m.
Proof. intros L H w Hw r w' Hm. destruct (H w Hw r w' Hm) as [H1 H2]. split; auto. intros a Ha. specialize (H2 a Ha). lia. Qed.
Lemma wsafe_bind {E A B} k1 k2 (m : M Writer E A) (f : A -> M Writer E B) :
  wsafe k1 m -> (forall a, wsafe k2 (f a)) -> wsafe (k1 + k2) (bind m f).
Proof.
  intros Hm Hf w Hw r w' H. unfold bind in H. destruct (m w) as [[a|e|p] w1] eqn:E1.
  - destruct (Hm w Hw _ _ E1) as [X1 X2]. specialize (X2 a eq_refl).
    destruct (Hf a w1 (proj1 X1) _ _ H) as [Y1 Y2]. split; [eapply wext_trans; eauto|].
    intros b Hb. specialize (Y2 b Hb). lia.
  - injection H as <- <-. destruct (Hm w Hw _ _ E1) as [X1 X2]. split; [auto|discriminate].
  - injection H as <- <-. destruct (Hm w Hw _ _ E1) as [X1 X2]. split; [auto|discriminate].
Qed.
Lemma wsafe_map_err {E F A} k (f : E -> F) (m : M Writer E A) : wsafe k m -> wsafe k (map_err f m).
Proof.
  intros H w Hw r w' Hm. unfold map_err in Hm. destruct (m w) as [[a|e|p] w1] eqn:E1;
    injection Hm as <- <-; destruct (H w Hw _ _ E1) as [H1 H2]; split; auto; try discriminate.
  intros b Hb. injection Hb as <-. now apply (H2 a).
Qed.
Lemma wext_app w bs : w_off w + length bs <= length (w_buf w) -> wext w (w_app w bs).
Proof.
  intros H. unfold wext. rewrite w_app_len by auto. split; [now apply w_app_wf|]. split; [auto|].
  unfold w_app; simpl. split; [lia|]. split.
  - rewrite firstn_app, firstn_firstn, firstn_length. replace (w_off w - _) with 0 by lia.
    rewrite Nat.min_id. simpl. apply app_nil_r.
  - rewrite !skipn_app, firstn_length, !skipn_all2 by (rewrite ?firstn_length; lia). simpl.
    replace (w_off w + length bs - Nat.min (w_off w) (length (w_buf w)) - length bs) with 0 by lia. reflexivity.
Qed.
Lemma wsafe_emits {E A} (m : M Writer E A) (full : E) bs (a : nat -> A) :
  (forall o, emits o m full bs (a o)) -> wsafe (length bs) m.
Proof.
  intros H w Hw r w' Hm. destruct (H (w_off w) w Hw eq_refl) as [H1 H2].
  destruct (Nat.le_gt_cases (w_off w + length bs) (length (w_buf w))) as [L|L].
  - rewrite (H1 L) in Hm. injection Hm as <- <-. split; [now apply wext_app|]. intros. simpl. lia.
  - destruct (H2 L) as (k & K1 & K2 & K3). rewrite K3 in Hm. injection Hm as <- <-. split; [|discriminate].
    apply wext_app. rewrite firstn_length. lia.
Qed.
Lemma wsafe_put b : wsafe 1 (put b).
Proof. exact (wsafe_emits (put b) BufferFull [b] _ (fun o => emits_put o b)). Qed.
Lemma wsafe_extend bs : wsafe (length bs) (w_extend bs).
Proof. exact (wsafe_emits (w_extend bs) BufferFull bs _ (fun o => emits_extend o bs)). Qed.
Lemma wsafe_extend0 bs : wsafe 0 (w_extend bs).
Proof. apply (wsafe_weaken (length bs)); [lia|apply wsafe_extend]. Qed.
Lemma wsafe_iter {E A} (l : list A) (f : A -> M Writer E unit) : (forall a, wsafe 0 (f a)) -> wsafe 0 (iterM l f).
Proof.
  intros H. induction l as [|x l IH]; [apply wsafe_ret|]. simpl. exact (wsafe_bind 0 0 _ _ (H x) (fun _ => IH)).
Qed.
Lemma wsafe_repeat {E} k n (m : M Writer E unit) : wsafe k m -> wsafe (n * k) (repeatM n m).
Proof.
  intros H. induction n as [|n IH]; [apply wsafe_ret|]. simpl. exact (wsafe_bind k (n * k) _ _ H (fun _ => IH)).
Qed.
Lemma wsafe_reserved n : wsafe n (put_reserved n).
Proof.
  replace n with (n * 1 + 0) at 1 by lia. apply wsafe_bind; [|intros; apply wsafe_offset].
  apply wsafe_repeat. exact (wsafe_bind 1 0 _ _ (wsafe_put 0) (fun _ => wsafe_ret tt)).
Qed.
Lemma wsafe_puts l : wsafe (length l) (iterM l (fun b => put b ;;; ret tt)).
Proof.
  induction l as [|x l IH]; [apply wsafe_ret|]. simpl.
  refine (wsafe_bind 1 (length l) _ _ _ (fun _ => IH)). exact (wsafe_bind 1 0 _ _ (wsafe_put x) (fun _ => wsafe_ret tt)).
Qed.
Lemma wsafe_u16 n : wsafe 2 (put_u16 n).
Proof. exact (wsafe_bind 2 0 _ _ (wsafe_puts (le_bytes 2 n)) (fun _ => wsafe_offset)). Qed.
Lemma wsafe_u24 n : wsafe 3 (put_u24 n).
Proof. exact (wsafe_bind 3 0 _ _ (wsafe_puts (firstn 3 (le_bytes 8 n))) (fun _ => wsafe_offset)). Qed.
Lemma wsafe_u32 n : wsafe 4 (put_u32 n).
Proof. exact (wsafe_bind 4 0 _ _ (wsafe_puts (le_bytes 4 n)) (fun _ => wsafe_offset)). Qed.
Lemma wsafe0 {E A} k (m : M Writer E A) : wsafe k m -> wsafe 0 m.
Proof. apply wsafe_weaken. lia. Qed.
Lemma wsafe_bind0 {E A B} (m : M Writer E A) (f : A -> M Writer E B) :
  wsafe 0 m -> (forall a, wsafe 0 (f a)) -> wsafe 0 (bind m f).
Proof. exact (wsafe_bind 0 0 m f). Qed.
Lemma wsafe_bindl {E A B} k (m : M Writer E A) (f : A -> M Writer E B) :
  wsafe k m -> (forall a, wsafe 0 (f a)) -> wsafe k (bind m f).
Proof. intros H1 H2. replace k with (k + 0) by lia. now apply wsafe_bind. Qed.

Lemma woff_offset {E} : @woff E w_offset.
Proof. intros w a w' [= <- <-]. reflexivity. Qed.
Lemma woff_bind {E A} (m : M Writer E A) (f : A -> M Writer E nat) : (forall a, woff (f a)) -> woff (bind m f).
Proof. intros H w a w' Hm. unfold bind in Hm. destruct (m w) as [[x|e|p] w1]; try discriminate. eapply H; eauto. Qed.
Lemma woff_map_err {E F} (f : E -> F) m : woff m -> woff (map_err f m).
Proof.
  intros H w a w' Hm. unfold map_err in Hm. destruct (m w) as [[x|e|p] w1] eqn:E1; try discriminate.
  injection Hm as <- <-. eauto.
Qed.
Lemma woff_put b : woff (put b).
Proof.
  intros w a w' H. unfold put in H. destruct (w_is_full w); [discriminate|].
  destruct (w_off w <? length (w_buf w)); [|discriminate]. now injection H as <- <-.
Qed.
Lemma woff_extend bs : woff (w_extend bs).
Proof.
  intros w a w' H. unfold w_extend in H. destruct (w_remaining w <? length bs); [discriminate|].
  destruct (_ <=? _); [|discriminate]. now injection H as <- <-.
Qed.
Lemma woff_reserved n : woff (put_reserved n).
Proof. apply woff_bind. intros; apply woff_offset. Qed.
Lemma woff_u16 n : woff (put_u16 n).
Proof. apply woff_bind. intros; apply woff_offset. Qed.
Lemma woff_u24 n : woff (put_u24 n).
Proof. apply woff_bind. intros; apply woff_offset. Qed.
Lemma woff_u32 n : woff (put_u32 n).
Proof. apply woff_bind. intros; apply woff_offset. Qed.
Lemma woff_pnc {E} p : @woff E (pnc p).
Proof. intros w a w' [=]. Qed.
Lemma woff_err {E} (e : E) : woff (err e).
Proof. intros w a w' [=]. Qed.
End Rules.

#[export] Hint Resolve wsafe_ret wsafe_lift wsafe_err wsafe_pnc wsafe_offset wsafe_put wsafe_extend0 wsafe_reserved
  wsafe_u16 wsafe_u24 wsafe_u32 woff_offset woff_put woff_extend woff_reserved woff_u16 woff_u24 woff_u32 woff_pnc
  woff_err : wsafe.
(** Walk down a writer program, asking for no growth. *)
Ltac wsafe0 := repeat first
  [ progress intros
  | solve [auto with wsafe]
  | solve [eapply wsafe0; auto with wsafe]
  | apply wsafe_bind0
  | apply wsafe_map_err
  | apply wsafe_iter
  | match goal with |- wsafe 0 (match ?x with _ => _ end) => destruct x end ].
Ltac woffs := repeat first
  [ progress intros
  | apply woff_bind
  | apply woff_map_err
  | match goal with |- woff (match ?x with _ => _ end) => destruct x end
  | solve [auto with wsafe] ].

Section Bodies.
Context {cfg : Config}.
Ltac first1 := apply wsafe_bindl; [try apply wsafe_map_err; solve [auto with wsafe | eapply wsafe_weaken; [|auto with wsafe]; lia]|intros; wsafe0].

Lemma wb_get_version : wsafe 1 get_version_write_body /\ woff get_version_write_body.
Proof. split; [|apply woff_reserved]. apply (wsafe_weaken 2); [lia|apply wsafe_reserved]. Qed.
Lemma ws_ve e : wsafe 0 (ve_write e).
Proof. unfold ve_write. wsafe0. Qed.
Hint Resolve ws_ve : wsafe.
Lemma wb_version m : wsafe 1 (version_write_body m) /\ woff (version_write_body m).
Proof. split; [|unfold version_write_body; woffs]. unfold version_write_body. first1. Qed.
Lemma wb_get_capabilities m : wsafe 1 (get_capabilities_write_body m) /\ woff (get_capabilities_write_body m).
Proof. split; [|unfold get_capabilities_write_body; woffs]. unfold get_capabilities_write_body. first1. Qed.
Lemma wb_capabilities m : wsafe 1 (capabilities_write_body m) /\ woff (capabilities_write_body m).
Proof. split; [|unfold capabilities_write_body; woffs]. unfold capabilities_write_body. first1. Qed.
Lemma ws_ar a : wsafe 0 (ar_write a) /\ woff (ar_write a).
Proof. unfold ar_write, alg_struct_write. split; [wsafe0|woffs]. Qed.
Hint Extern 1 (wsafe 0 (ar_write _)) => apply ws_ar : wsafe.
Hint Extern 1 (woff (ar_write _)) => apply ws_ar : wsafe.
Lemma ws_alg_structs n : forall i l, wsafe 0 (write_alg_structs n i l).
Proof. induction n as [|n IH]; intros; simpl; [apply wsafe_ret|]. wsafe0. Qed.
Hint Resolve ws_alg_structs : wsafe.
Lemma wb_negotiate m : wsafe 1 (negotiate_algorithms_write_body m) /\ woff (negotiate_algorithms_write_body m).
Proof. split; [|unfold negotiate_algorithms_write_body; woffs]. unfold negotiate_algorithms_write_body. first1. Qed.
Lemma wb_algorithms m : wsafe 1 (algorithms_write_body m) /\ woff (algorithms_write_body m).
Proof. split; [|unfold algorithms_write_body; woffs]. unfold algorithms_write_body. first1. Qed.
Lemma wb_get_digests : wsafe 1 get_digests_write_body /\ woff get_digests_write_body.
Proof. exact wb_get_version. Qed.
Lemma ws_digests_loop fuel : forall bits ds o, wsafe 0 (write_digests_loop fuel bits ds o).
Proof. induction fuel as [|f IH]; intros; simpl; wsafe0. Qed.
Hint Resolve ws_digests_loop : wsafe.
Lemma wo_digests_loop fuel : forall bits ds o w a w', write_digests_loop fuel bits ds o w = (Ok a, w') ->
  o = w_off w -> a = w_off w'.
Proof.
  induction fuel as [|f IH]; intros bits ds o w a w' H Ho; simpl in H.
  - destruct (_ <? _); [discriminate|]. injection H as <- <-. auto.
  - destruct (_ <? _); [|injection H as <- <-; auto]. unfold bind at 1, lift at 1 in H.
    destruct (match nth_error ds _ with Some (Some d) => Ok d | Some None => Panic PUnwrap | None => Panic PIndex end)
      as [d|e|p]; try discriminate.
    unfold bind at 1 in H. destruct (w_extend d w) as [[o'|e|p] w1] eqn:E1; try discriminate.
    unfold bind at 1, lift at 1 in H. destruct (xor_bit bits _) as [b|e|p]; try discriminate.
    eapply IH; [exact H|]. eapply woff_extend; eauto.
Qed.
Lemma wb_digests m : wsafe 1 (digests_write_body m) /\ woff (digests_write_body m).
Proof.
  split; unfold digests_write_body, write_digests; [first1|].
  apply woff_bind; intros _. apply woff_bind; intros _. intros w a w' H. unfold bind, w_offset, gets in H.
  eapply wo_digests_loop; [exact H|reflexivity].
Qed.
Lemma wb_get_certificate m : wsafe 1 (get_certificate_write_body m) /\ woff (get_certificate_write_body m).
Proof. split; unfold get_certificate_write_body; [first1|woffs]. Qed.
Lemma wb_certificate m : wsafe 1 (certificate_write_body m) /\ woff (certificate_write_body m).
Proof. split; unfold certificate_write_body; [first1|woffs]. Qed.
Lemma wb_challenge m : wsafe 1 (challenge_write_body m) /\ woff (challenge_write_body m).
Proof. split; unfold challenge_write_body; [first1|woffs]. Qed.
Lemma ws_oe e : wsafe 0 (oe_write e).
Proof. unfold oe_write, vendor_id_write. wsafe0. Qed.
Hint Resolve ws_oe : wsafe.
Lemma ws_od d : wsafe 0 (od_write d).
Proof. unfold od_write. wsafe0. Qed.
Hint Resolve ws_od : wsafe.
Lemma wb_challenge_auth m : wsafe 1 (challenge_auth_write_body m) /\ woff (challenge_auth_write_body m).
Proof.
  split; unfold challenge_auth_write_body; [|woffs].
  change 1 with (0 + (1 + 0)). apply wsafe_bind; [wsafe0|intros _]. apply wsafe_bind; [|intros; wsafe0].
  destruct (ca_use_mutual_auth m); apply wsafe_map_err, wsafe_put.
Qed.
Lemma wb_get_measurements m : wsafe 1 (get_measurements_write_body m) /\ woff (get_measurements_write_body m).
Proof. split; unfold get_measurements_write_body; [first1|woffs]. Qed.
Lemma wo_dm m : woff (dm_write m).
Proof. unfold dm_write, mv_write. woffs. Qed.
Lemma ws_dm m : wsafe 0 (dm_write m).
Proof. unfold dm_write, mv_write. wsafe0. Qed.
Hint Resolve ws_dm wo_dm : wsafe.
Lemma ws_mb m : wsafe 0 (mb_write m).
Proof. unfold mb_write. wsafe0. Qed.
Hint Resolve ws_mb : wsafe.
Lemma ws_mbs_loop n : forall i l, wsafe 0 (mbs_write_loop n i l).
Proof. induction n as [|n IH]; intros; simpl; wsafe0. Qed.
Hint Resolve ws_mbs_loop : wsafe.
Lemma ws_mbs m : wsafe 0 (mbs_write m).
Proof. unfold mbs_write. wsafe0. Qed.
Hint Resolve ws_mbs : wsafe.
Lemma wb_measurements m : wsafe 1 (measurements_write_body m) /\ woff (measurements_write_body m).
Proof. split; unfold measurements_write_body; [first1|woffs]. Qed.
Lemma wb_error m : wsafe 1 (error_write_body m) /\ woff (error_write_body m).
Proof.
  split; unfold error_write_body; [|destruct m; woffs].
  apply wsafe_bindl; [|intros; wsafe0]. unfold vendor_id_write. destruct m; first1.
Qed.

(** [Msg::write]: header, then a body that only extends. *)
Lemma write_msg_safe {E} id (from : BufferFullError -> E) body buf r out :
  wsafe 1 body /\ woff body -> write_msg id from body buf = (r, out) ->
  length out = length buf /\
  forall n, r = Ok n -> 2 < n /\ n <= length buf /\ skipn n out = skipn n buf /\
                        firstn 2 out = [SPDM_VERSION id; SPDM_CODE id].
Proof.
  intros [Hs Ho] H. unfold write_msg in H.
  destruct ((map_err from (write_header id) ;;; body) (writer_new buf)) as [r' w'] eqn:E1. injection H as <- <-.
  assert (Hw : w_wf (writer_new buf)) by (unfold w_wf; simpl; lia).
  assert (Hh : emits 0 (map_err from (write_header id)) (from BufferFull) [SPDM_VERSION id; SPDM_CODE id] 2).
  { eapply emits_map_err; [exact (emits_header 0 id)|reflexivity]. }
  destruct (Hh _ Hw eq_refl) as [H1 H2]. simpl in H1, H2.
  destruct (Nat.le_gt_cases 2 (length buf)) as [L|L].
  - unfold bind in E1. rewrite (H1 L) in E1. set (w1 := w_app _ _) in E1.
    assert (W1 : w_wf w1) by (apply w_app_wf; simpl; lia).
    assert (L1 : length (w_buf w1) = length buf) by (apply w_app_len; simpl; lia).
    destruct (Hs w1 W1 _ _ E1) as [(X1 & X2 & X3 & X4 & X5) X6]. split; [congruence|].
    intros n ->. specialize (X6 n eq_refl). pose proof (Ho _ _ _ E1) as ->. unfold w_wf in X1.
    change (w_off w1) with 2 in *. repeat split; try lia.
    + rewrite X5. replace (w_off w') with (2 + (w_off w' - 2)) by lia. rewrite <- !skipn_skipn'. f_equal.
    + rewrite X4. reflexivity.
  - destruct (H2 L) as (k & K1 & K2 & K3). unfold bind in E1. rewrite K3 in E1. injection E1 as <- <-.
    split; [|discriminate]. apply w_app_len. rewrite firstn_length. simpl in *. lia.
Qed.
End Bodies.
