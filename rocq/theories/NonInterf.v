(** Relational facts about writing: two runs on output buffers of the same
    length write the same bytes, whatever the buffers contained. *)
From Verif Require Import Base BaseLemmas Config Encoding MsgCommon MsgVersion MsgCapabilities MsgAlgorithms MsgDigest
     MsgCertificates MsgChallenge MsgError MsgMeasurements Transcript Crypto Responder Requester WriterLogic WriterSafe PropTranscript.

(** [x1], [x2] are [b1], [b2] with the same bytes, at least [k], written over their starts. *)
Definition overwritten (k : nat) (b1 b2 x1 x2 : list N) : Prop :=
  exists pre, k <= length pre /\ length pre <= length b1 /\
    x1 = pre ++ skipn (length pre) b1 /\ x2 = pre ++ skipn (length pre) b2.

Lemma splice_app (off : nat) (bs pre b : list N) : off <= length pre -> length pre <= length b -> off + length bs <= length b ->
  firstn off (pre ++ skipn (length pre) b) ++ bs ++ skipn (off + length bs) (pre ++ skipn (length pre) b) =
  (firstn off pre ++ bs ++ skipn (off + length bs) pre) ++
    skipn (length (firstn off pre ++ bs ++ skipn (off + length bs) pre)) b.
Proof.
  intros H1 H2 H3. rewrite !app_length, firstn_length, skipn_length, Nat.min_l by lia.
  rewrite firstn_app. replace (off - length pre) with 0 by lia. rewrite firstn_O, app_nil_r, <- !app_assoc. do 2 f_equal.
  rewrite skipn_app. f_equal. rewrite skipn_skipn'. f_equal. lia.
Qed.

Section Rel.
Context {cfg : Config} {cr : Crypto}.
Variables b1 b2 : list N.
Hypothesis Hlen : length b1 = length b2.

Lemma over_splice k off bs x1 x2 : overwritten k b1 b2 x1 x2 -> off <= k -> off + length bs <= length b1 ->
  overwritten (Nat.max k (off + length bs)) b1 b2 (firstn off x1 ++ bs ++ skipn (off + length bs) x1) (firstn off x2 ++ bs ++ skipn (off + length bs) x2).
Proof.
  intros (pre & L1 & L2 & -> & ->) L3 L4. exists (firstn off pre ++ bs ++ skipn (off + length bs) pre).
  assert (LL : length (firstn off pre ++ bs ++ skipn (off + length bs) pre) = Nat.max (length pre) (off + length bs)).
  { rewrite !app_length, firstn_length, skipn_length. lia. }
  split; [rewrite LL; lia|]. split; [rewrite LL; lia|]. split; apply splice_app; lia.
Qed.
Lemma over_weaken k k' x1 x2 : k' <= k -> overwritten k b1 b2 x1 x2 -> overwritten k' b1 b2 x1 x2.
Proof. intros L (pre & L1 & L2 & E). exists pre. split; [lia|auto]. Qed.
Lemma over_length k x1 x2 : overwritten k b1 b2 x1 x2 -> length x1 = length b1 /\ length x2 = length b1 /\ k <= length b1.
Proof. intros (pre & L1 & L2 & -> & ->). rewrite !app_length, !skipn_length. lia. Qed.
Lemma over_firstn k n x1 x2 : overwritten k b1 b2 x1 x2 -> n <= k -> firstn n x1 = firstn n x2.
Proof. intros (pre & L1 & L2 & -> & ->) L. rewrite !firstn_app. replace (n - length pre) with 0 by lia. reflexivity. Qed.

(** * Writers *)
Definition wrel (w1 w2 : Writer) : Prop := w_off w1 = w_off w2 /\ overwritten (w_off w1) b1 b2 (w_buf w1) (w_buf w2).
Definition wsim {E A} (m : M Writer E A) : Prop := forall w1 w2, wrel w1 w2 ->
  fst (m w1) = fst (m w2) /\ wrel (snd (m w1)) (snd (m w2)).
Lemma wrel_wf w1 w2 : wrel w1 w2 -> w_wf w1 /\ w_wf w2.
Proof. intros [E O]. apply over_length in O. unfold w_wf. lia. Qed.
Lemma wrel_app w1 w2 bs : wrel w1 w2 -> w_off w1 + length bs <= length b1 -> wrel (w_app w1 bs) (w_app w2 bs).
Proof.
  intros [E O] L. unfold w_app. rewrite <- E. split; [reflexivity|]. cbn [w_off w_buf].
  apply (over_weaken (Nat.max (w_off w1) (w_off w1 + length bs))); [lia|]. now apply over_splice.
Qed.
Lemma wsim_emits {E A} (m : M Writer E A) (full : E) bs (a : nat -> A) :
  (forall o, emits o m full bs (a o)) -> (forall w1 w2, wrel w1 w2 -> length (w_buf w1) < w_off w1 + length bs -> 
     wrel (snd (m w1)) (snd (m w2))) -> wsim m.
Proof.
  intros H HF w1 w2 R. pose proof R as [E1 O]. destruct (wrel_wf _ _ R) as [W1 W2]. destruct (over_length _ _ _ O) as (LB1 & LB2 & _).
  destruct (H (w_off w1) w1 W1 eq_refl) as [A1 A2]. destruct (H (w_off w1) w2 W2 (eq_sym E1)) as [B1 B2].
  destruct (Nat.le_gt_cases (w_off w1 + length bs) (length (w_buf w1))) as [L|L].
  - rewrite A1, B1 by lia. split; [reflexivity|]. apply wrel_app; [exact R|lia].
  - split; [|now apply HF]. destruct A2 as (k & _ & _ & ->); [lia|]. destruct B2 as (k' & _ & _ & ->); [lia|]. reflexivity.
Qed.
Lemma wsim_ret {E A} (a : A) : @wsim E A (ret a). Proof. intros w1 w2 R. split; [reflexivity|exact R]. Qed.
Lemma wsim_lift {E A} (r : res E A) : wsim (lift r). Proof. intros w1 w2 R. split; [reflexivity|exact R]. Qed.
Lemma wsim_err {E A} (e : E) : @wsim E A (err e). Proof. intros w1 w2 R. split; [reflexivity|exact R]. Qed.
Lemma wsim_pnc {E A} p : @wsim E A (pnc p). Proof. intros w1 w2 R. split; [reflexivity|exact R]. Qed.
Lemma wsim_offset {E} : @wsim E nat w_offset. Proof. intros w1 w2 R. split; [|exact R]. destruct R as [R _]. unfold w_offset, gets. simpl. now rewrite R. Qed.
Lemma wsim_bind {E A B} (m : M Writer E A) (f : A -> M Writer E B) : wsim m -> (forall a, wsim (f a)) -> wsim (bind m f).
Proof.
  intros Hm Hf w1 w2 R. destruct (Hm _ _ R) as [E1 R1]. unfold bind. destruct (m w1) as [r1 v1], (m w2) as [r2 v2]. simpl in E1, R1. subst r2.
  destruct r1; simpl; auto. now apply Hf.
Qed.
Lemma wsim_map_err {E F A} (f : E -> F) (m : M Writer E A) : wsim m -> wsim (map_err f m).
Proof.
  intros Hm w1 w2 R. destruct (Hm _ _ R) as [E1 R1]. unfold map_err. destruct (m w1) as [r1 v1], (m w2) as [r2 v2]. simpl in E1, R1. subst r2.
  destruct r1; simpl; auto.
Qed.
Lemma wsim_put b : wsim (put b).
Proof.
  apply (wsim_emits _ BufferFull [b] _ (fun o => emits_put o b)). intros w1 w2 R L.
  destruct (wrel_wf _ _ R) as [W1 W2]. pose proof R as [E1 O]. apply over_length in O as (LB1 & LB2 & _).
  destruct (emits_put (w_off w1) b w1 W1 eq_refl) as [_ A2]. destruct (emits_put (w_off w1) b w2 W2 (eq_sym E1)) as [_ B2].
  destruct (A2 L) as (k & K & _ & ->). destruct B2 as (k' & K' & _ & ->); [lia|]. simpl in K, K'. replace k with 0 by lia. replace k' with 0 by lia.
  cbn [firstn snd]. rewrite !w_app_nil by auto. exact R.
Qed.
Lemma wsim_extend bs : wsim (w_extend bs).
Proof.
  apply (wsim_emits _ BufferFull bs _ (fun o => emits_extend o bs)). intros w1 w2 R L.
  pose proof R as [E1 O]. destruct (wrel_wf _ _ R) as [W1 W2]. unfold w_wf in *. apply over_length in O as (LB1 & LB2 & _).
  unfold w_extend, w_remaining. destruct (Nat.ltb_spec (length (w_buf w1) - w_off w1) (length bs)); [|lia].
  destruct (Nat.ltb_spec (length (w_buf w2) - w_off w2) (length bs)); [exact R|lia].
Qed.
Lemma wsim_iter {E A} (l : list A) (f : A -> M Writer E unit) : (forall a, wsim (f a)) -> wsim (iterM l f).
Proof. intros H. induction l as [|x l IH]; [apply wsim_ret|]. simpl. apply wsim_bind; auto. Qed.
Lemma wsim_repeat {E} n (m : M Writer E unit) : wsim m -> wsim (repeatM n m).
Proof. intros H. induction n as [|n IH]; [apply wsim_ret|]. simpl. apply wsim_bind; auto. Qed.
Create HintDb wsim.
Hint Resolve wsim_ret wsim_lift wsim_err wsim_pnc wsim_offset wsim_put wsim_extend : wsim.
Ltac ws := repeat first
  [ progress intros
  | solve [auto with wsim]
  | apply wsim_bind
  | apply wsim_map_err
  | apply wsim_iter
  | apply wsim_repeat
  | match goal with |- wsim (match ?x with _ => _ end) => destruct x end ].
Lemma wsim_reserved n : wsim (put_reserved n). Proof. unfold put_reserved. ws. Qed.
Lemma wsim_u16 n : wsim (put_u16 n). Proof. unfold put_u16. ws. Qed.
Lemma wsim_u24 n : wsim (put_u24 n). Proof. unfold put_u24. ws. Qed.
Lemma wsim_u32 n : wsim (put_u32 n). Proof. unfold put_u32. ws. Qed.
Hint Resolve wsim_reserved wsim_u16 wsim_u24 wsim_u32 : wsim.

Lemma wm_get_version : wsim get_version_write_body. Proof. apply wsim_reserved. Qed.
Lemma wm_ve e : wsim (ve_write e). Proof. unfold ve_write. ws. Qed.
Hint Resolve wm_ve : wsim.
Lemma wm_version m : wsim (version_write_body m). Proof. unfold version_write_body. ws. Qed.
Lemma wm_get_capabilities m : wsim (get_capabilities_write_body m). Proof. unfold get_capabilities_write_body. ws. Qed.
Lemma wm_capabilities m : wsim (capabilities_write_body m). Proof. unfold capabilities_write_body. ws. Qed.
Lemma wm_ar a : wsim (ar_write a). Proof. unfold ar_write, alg_struct_write. ws. Qed.
Hint Resolve wm_ar : wsim.
Lemma wm_alg_structs n : forall i l, wsim (write_alg_structs n i l).
Proof. induction n as [|n IH]; intros; simpl; ws. Qed.
Hint Resolve wm_alg_structs : wsim.
Lemma wm_negotiate m : wsim (negotiate_algorithms_write_body m). Proof. unfold negotiate_algorithms_write_body. ws. Qed.
Lemma wm_algorithms m : wsim (algorithms_write_body m). Proof. unfold algorithms_write_body. ws. Qed.
Lemma wm_get_digests : wsim get_digests_write_body. Proof. apply wsim_reserved. Qed.
Lemma wm_digests_loop fuel : forall bits ds o, wsim (write_digests_loop fuel bits ds o).
Proof. induction fuel as [|f IH]; intros; simpl; ws. Qed.
Hint Resolve wm_digests_loop : wsim.
Lemma wm_digests m : wsim (digests_write_body m). Proof. unfold digests_write_body, write_digests. ws. Qed.
Lemma wm_get_certificate m : wsim (get_certificate_write_body m). Proof. unfold get_certificate_write_body. ws. Qed.
Lemma wm_certificate m : wsim (certificate_write_body m). Proof. unfold certificate_write_body. ws. Qed.
Lemma wm_challenge m : wsim (challenge_write_body m). Proof. unfold challenge_write_body. ws. Qed.
Lemma wm_oe e : wsim (oe_write e). Proof. unfold oe_write, vendor_id_write. ws. Qed.
Hint Resolve wm_oe : wsim.
Lemma wm_od d : wsim (od_write d). Proof. unfold od_write. ws. Qed.
Hint Resolve wm_od : wsim.
Lemma wm_challenge_auth m : wsim (challenge_auth_write_body m). Proof. unfold challenge_auth_write_body. ws. Qed.
Lemma wm_get_measurements m : wsim (get_measurements_write_body m). Proof. unfold get_measurements_write_body. ws. Qed.
Lemma wm_dm m : wsim (dm_write m). Proof. unfold dm_write, mv_write. ws. Qed.
Hint Resolve wm_dm : wsim.
Lemma wm_mb m : wsim (mb_write m). Proof. unfold mb_write. ws. Qed.
Hint Resolve wm_mb : wsim.
Lemma wm_mbs_loop n : forall i l, wsim (mbs_write_loop n i l).
Proof. induction n as [|n IH]; intros; simpl; ws. Qed.
Hint Resolve wm_mbs_loop : wsim.
Lemma wm_mbs m : wsim (mbs_write m). Proof. unfold mbs_write. ws. Qed.
Hint Resolve wm_mbs : wsim.
Lemma wm_measurements m : wsim (measurements_write_body m). Proof. unfold measurements_write_body. ws. Qed.
Lemma wm_error m : wsim (error_write_body m). Proof. unfold error_write_body, vendor_id_write. ws. Qed.

Lemma write_msg_over {E} k id (from : BufferFullError -> E) body x1 x2 : wsim body -> woff body ->
  overwritten k b1 b2 x1 x2 ->
  fst (write_msg id from body x1) = fst (write_msg id from body x2) /\
  overwritten 0 b1 b2 (snd (write_msg id from body x1)) (snd (write_msg id from body x2)) /\
  forall n, fst (write_msg id from body x1) = Ok n ->
    overwritten n b1 b2 (snd (write_msg id from body x1)) (snd (write_msg id from body x2)).
Proof.
  intros HB HO O. unfold write_msg. set (m := map_err from (write_header id) ;;; body).
  assert (HM : wsim m) by (apply wsim_bind; [apply wsim_map_err; unfold write_header; ws|auto]).
  assert (HOM : woff m) by (apply woff_bind; auto).
  assert (R : wrel (writer_new x1) (writer_new x2)). { split; [reflexivity|]. now apply (over_weaken k); [simpl; lia|]. }
  destruct (HM _ _ R) as [E1 R1]. specialize (HOM (writer_new x1)).
  destruct (m (writer_new x1)) as [r1 w1], (m (writer_new x2)) as [r2 w2]. cbn [fst snd] in *. subst r2. destruct R1 as [EO O1].
  split; [reflexivity|]. split; [apply (over_weaken (w_off w1)); [lia|exact O1]|].
  intros n ->. rewrite (HOM n w1 eq_refl). exact O1.
Qed.
End Rel.
#[export] Hint Resolve wm_get_version wm_version wm_get_capabilities wm_capabilities wm_negotiate wm_algorithms wm_get_digests wm_digests
  wm_get_certificate wm_certificate wm_challenge wm_challenge_auth wm_get_measurements wm_measurements wm_error : wsim.
