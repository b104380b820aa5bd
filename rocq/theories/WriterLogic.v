(** Program logic for Writer code: a writer program appends a known byte string
    or fails with BufferFull having appended a strict prefix of it. *)
From Verif Require Import Base BaseLemmas Config Encoding MsgCommon.

Definition w_wf (w : Writer) : Prop := w_off w <= length (w_buf w).

(** The writer after appending [bs] at its offset. *)
Definition w_app (w : Writer) (bs : list N) : Writer :=
  mkWriter (firstn (w_off w) (w_buf w) ++ bs ++ skipn (w_off w + length bs) (w_buf w))
           (w_off w + length bs).

(** [m], started at offset [o], appends [bs] and returns [a] if [bs] fits and
    otherwise fails with [full] having appended a strict prefix of [bs]. *)
Definition emits {E A} (o : nat) (m : M Writer E A) (full : E) (bs : list N) (a : A) : Prop :=
  forall w, w_wf w -> w_off w = o ->
    (o + length bs <= length (w_buf w) -> m w = (Ok a, w_app w bs)) /\
    (length (w_buf w) < o + length bs ->
     exists k, k < length bs /\ o + k <= length (w_buf w) /\ m w = (Err full, w_app w (firstn k bs))).

Lemma w_app_nil w : w_wf w -> w_app w [] = w.
Proof.
  intros H. destruct w as [b o]; unfold w_app, w_wf in *; simpl in *.
  rewrite Nat.add_0_r. now rewrite firstn_skipn.
Qed.
Lemma w_app_len w bs : w_off w + length bs <= length (w_buf w) -> length (w_buf (w_app w bs)) = length (w_buf w).
Proof.
  intros H. unfold w_app; simpl. rewrite !app_length, firstn_length, skipn_length. lia.
Qed.
Lemma w_app_wf w bs : w_off w + length bs <= length (w_buf w) -> w_wf (w_app w bs).
Proof. intros H. unfold w_wf. rewrite w_app_len by lia. unfold w_app; simpl. lia. Qed.
Lemma w_app_app w a b :
  w_off w + length a + length b <= length (w_buf w) -> w_app (w_app w a) b = w_app w (a ++ b).
Proof.
  intros H. destruct w as [buf o]; unfold w_app; simpl in *.
  rewrite app_length. f_equal; [|lia].
  assert (L : length (firstn o buf ++ a) = o + length a) by (rewrite app_length, firstn_length; lia).
  rewrite (app_assoc (firstn o buf) a (skipn (o + length a) buf)).
  rewrite (firstn_app_exact (firstn o buf ++ a)) by lia.
  rewrite (skipn_app _ (firstn o buf ++ a)), L.
  replace (o + length a + length b - (o + length a)) with (length b) by lia.
  rewrite (skipn_all2 (firstn o buf ++ a)) by lia. simpl. rewrite skipn_skipn'.
  rewrite <- !app_assoc. do 4 f_equal. lia.
Qed.

Section Rules.
Context {cfg : Config}.

Lemma emits_ret {E A} o (full : E) (a : A) : emits o (ret a) full [] a.
Proof.
  intros w Hw <-. simpl. rewrite Nat.add_0_r. unfold w_wf in Hw. split; intros; [|lia].
  unfold ret. now rewrite w_app_nil.
Qed.
Lemma emits_offset {E} o (full : E) : emits o w_offset full [] o.
Proof.
  intros w Hw <-. simpl. rewrite Nat.add_0_r. unfold w_wf in Hw. split; intros; [|lia].
  unfold w_offset, gets. now rewrite w_app_nil.
Qed.
Lemma emits_put o b : emits o (put b) BufferFull [b] (S o).
Proof.
  intros w Hw <-. unfold put, w_is_full, w_wf in *. simpl length. split; intros H.
  - destruct (Nat.eqb_spec (w_off w) (length (w_buf w))); [lia|].
    destruct (Nat.ltb_spec (w_off w) (length (w_buf w))); [|lia].
    unfold w_app. simpl. rewrite upd_split by lia.
    replace (w_off w + 1) with (S (w_off w)) by lia. reflexivity.
  - exists 0. simpl. rewrite Nat.add_0_r. repeat split; try lia.
    destruct (Nat.eqb_spec (w_off w) (length (w_buf w))); [|lia].
    now rewrite w_app_nil.
Qed.
Lemma emits_extend o bs : emits o (w_extend bs) BufferFull bs (o + length bs).
Proof.
  intros w Hw <-. unfold w_extend, w_remaining, w_wf in *. split; intros H.
  - destruct (Nat.ltb_spec (length (w_buf w) - w_off w) (length bs)); [lia|].
    destruct (Nat.leb_spec (w_off w + length bs) (length (w_buf w))); [|lia].
    reflexivity.
  - exists 0. simpl. rewrite Nat.add_0_r. repeat split; try lia.
    destruct (Nat.ltb_spec (length (w_buf w) - w_off w) (length bs)); [|lia].
    now rewrite w_app_nil.
Qed.
Lemma emits_bind {E A B} o (m : M Writer E A) (k : A -> M Writer E B) full bs1 a bs2 b :
  emits o m full bs1 a -> emits (o + length bs1) (k a) full bs2 b ->
  emits o (bind m k) full (bs1 ++ bs2) b.
Proof.
  intros H1 H2 w Hw Ho. destruct (H1 w Hw Ho) as [H1a H1b]. rewrite app_length.
  unfold bind. split; intros H.
  - rewrite H1a by lia.
    assert (W : w_wf (w_app w bs1)) by (apply w_app_wf; lia).
    destruct (H2 (w_app w bs1) W) as [H2a _]; [unfold w_app; simpl; lia|].
    rewrite H2a; [|rewrite w_app_len; lia].
    rewrite w_app_app by lia. reflexivity.
  - destruct (Nat.le_gt_cases (o + length bs1) (length (w_buf w))) as [F|F].
    + rewrite H1a by lia.
      assert (W : w_wf (w_app w bs1)) by (apply w_app_wf; lia).
      destruct (H2 (w_app w bs1) W) as [_ H2b]; [unfold w_app; simpl; lia|].
      rewrite w_app_len in H2b by lia.
      destruct H2b as (k2 & K1 & K2 & ->); [lia|].
      exists (length bs1 + k2). repeat split; try lia.
      rewrite firstn_app_2. rewrite w_app_app; [reflexivity|]. rewrite firstn_length. lia.
    + destruct (H1b F) as (k1 & K1 & K2 & ->). exists k1. repeat split; try lia.
      rewrite firstn_app. replace (k1 - length bs1) with 0 by lia. simpl. now rewrite app_nil_r.
Qed.
Lemma emits_map_err {E F A} (f : E -> F) o (m : M Writer E A) full bs a full' :
  emits o m full bs a -> f full = full' -> emits o (map_err f m) full' bs a.
Proof.
  intros H <- w Hw Ho. destruct (H w Hw Ho) as [Ha Hb]. unfold map_err. split; intros L.
  - now rewrite Ha.
  - destruct (Hb L) as (k & K1 & K2 & ->). now exists k.
Qed.
Lemma emits_lift {E A} o (full : E) (a : A) r : r = Ok a -> emits o (lift r) full [] a.
Proof. intros ->. apply emits_ret. Qed.
Lemma emits_eq {E A} o (m : M Writer E A) full bs a bs' a' :
  emits o m full bs a -> bs = bs' -> a = a' -> emits o m full bs' a'.
Proof. now intros ? -> ->. Qed.

(** [f x] appends [enc x] for every element: the loop appends the concatenation. *)
Lemma emits_iter {E A} (full : E) (f : A -> M Writer E unit) (enc : A -> list N) xs :
  (forall x o, In x xs -> emits o (f x) full (enc x) tt) ->
  forall o, emits o (iterM xs f) full (concat (map enc xs)) tt.
Proof.
  induction xs as [|x xs IH]; intros H o; simpl.
  - apply emits_ret.
  - eapply emits_bind; [apply H; now left|]. apply IH. intros; apply H; now right.
Qed.
Lemma emits_put_iter l o : emits o (iterM l (fun b => put b ;;; ret tt)) BufferFull l tt.
Proof.
  eapply emits_eq; [apply (emits_iter BufferFull _ (fun b => [b]))| |reflexivity].
  - intros x o' _. eapply emits_eq; [eapply emits_bind; [apply emits_put|apply emits_ret]| |]; reflexivity.
  - induction l; simpl; congruence.
Qed.
Lemma emits_put_reserved o n : emits o (put_reserved n) BufferFull (repeat 0%N n) (o + n).
Proof.
  unfold put_reserved. eapply emits_eq; [eapply emits_bind; [|apply emits_offset]| |].
  - instantiate (1 := tt). instantiate (1 := repeat 0%N n). revert o.
    induction n; intros o; simpl; [apply emits_ret|].
    change (0%N :: repeat 0%N n) with (([0%N] ++ []) ++ repeat 0%N n).
    eapply emits_bind; [|apply IHn]. eapply emits_bind; [apply emits_put|apply emits_ret].
  - now rewrite app_nil_r.
  - now rewrite repeat_length.
Qed.
Lemma emits_put_u16 o n : emits o (put_u16 n) BufferFull (le_bytes 2 n) (o + 2).
Proof.
  unfold put_u16. eapply emits_eq; [eapply emits_bind; [apply emits_put_iter|apply emits_offset]| |].
  - now rewrite app_nil_r.
  - now rewrite le_bytes_length.
Qed.
Lemma emits_put_u24 o n : emits o (put_u24 n) BufferFull (le_bytes 3 n) (o + 3).
Proof.
  unfold put_u24. eapply emits_eq; [eapply emits_bind; [apply emits_put_iter|apply emits_offset]| |].
  - now rewrite app_nil_r.
  - reflexivity.
Qed.
Lemma emits_put_u32 o n : emits o (put_u32 n) BufferFull (le_bytes 4 n) (o + 4).
Proof.
  unfold put_u32. eapply emits_eq; [eapply emits_bind; [apply emits_put_iter|apply emits_offset]| |].
  - now rewrite app_nil_r.
  - now rewrite le_bytes_length.
Qed.

(** A whole message: header then body. *)
Lemma emits_header o id : emits o (write_header id) BufferFull [SPDM_VERSION id; SPDM_CODE id] (o + 2).
Proof.
  unfold write_header. eapply emits_eq; [eapply emits_bind; [apply emits_put|apply emits_put]| |].
  - reflexivity.
  - simpl. lia.
Qed.

Lemma write_msg_spec {E} id (from : BufferFullError -> E) body (bs : list N) buf :
  emits 2 body (from BufferFull) bs (2 + length bs) ->
  let total := SPDM_VERSION id :: SPDM_CODE id :: bs in
  (length total <= length buf ->
   write_msg id from body buf = (Ok (length total), total ++ skipn (length total) buf)) /\
  (length buf < length total ->
   exists k, k <= length buf /\
     write_msg id from body buf = (Err (from BufferFull), firstn k total ++ skipn k buf)).
Proof.
  intros H total.
  assert (E1 : emits 0 (map_err from (write_header id) ;;; body) (from BufferFull)
                     ([SPDM_VERSION id; SPDM_CODE id] ++ bs) (2 + length bs)).
  { eapply emits_bind; [eapply emits_map_err; [apply emits_header|reflexivity]|exact H]. }
  specialize (E1 (writer_new buf)). destruct E1 as [Ea Eb]; [unfold w_wf; simpl; lia|reflexivity|].
  simpl in Ea, Eb. unfold write_msg, total. simpl length. split; intros L.
  - rewrite Ea by lia. reflexivity.
  - destruct Eb as (k & K1 & K2 & ->); [lia|]. exists k. split; [lia|].
    unfold w_app; simpl. f_equal. rewrite firstn_length. simpl length.
    now replace (Nat.min k (S (S (length bs)))) with k by lia.
Qed.
End Rules.

(** The same with a set of errors for the full buffer. *)
Definition emitsS {E A} (o : nat) (m : M Writer E A) (full : E -> Prop) (bs : list N) (a : A) : Prop :=
  forall w, w_wf w -> w_off w = o ->
    (o + length bs <= length (w_buf w) -> m w = (Ok a, w_app w bs)) /\
    (length (w_buf w) < o + length bs ->
     exists e k, full e /\ k < length bs /\ o + k <= length (w_buf w) /\ m w = (Err e, w_app w (firstn k bs))).

Lemma emitsS_of {E A} o (m : M Writer E A) full (F : E -> Prop) bs a : emits o m full bs a -> F full -> emitsS o m F bs a.
Proof.
  intros H HF w Hw Ho. destruct (H w Hw Ho) as [H1 H2]. split; auto.
  intros L. destruct (H2 L) as (k & ? & ? & ?). eauto 6.
Qed.
Lemma emitsS_eq {E A} o (m : M Writer E A) full bs a bs' a' :
  emitsS o m full bs a -> bs = bs' -> a = a' -> emitsS o m full bs' a'.
Proof. now intros ? -> ->. Qed.
Lemma emitsS_bind {E A B} o (m : M Writer E A) (k : A -> M Writer E B) full bs1 a bs2 b :
  emitsS o m full bs1 a -> emitsS (o + length bs1) (k a) full bs2 b ->
  emitsS o (bind m k) full (bs1 ++ bs2) b.
Proof.
  intros H1 H2 w Hw Ho. destruct (H1 w Hw Ho) as [H1a H1b]. rewrite app_length.
  unfold bind. split; intros H.
  - rewrite H1a by lia.
    assert (W : w_wf (w_app w bs1)) by (apply w_app_wf; lia).
    destruct (H2 (w_app w bs1) W) as [H2a _]; [unfold w_app; simpl; lia|].
    rewrite H2a; [|rewrite w_app_len; lia].
    rewrite w_app_app by lia. reflexivity.
  - destruct (Nat.le_gt_cases (o + length bs1) (length (w_buf w))) as [F|F].
    + rewrite H1a by lia.
      assert (W : w_wf (w_app w bs1)) by (apply w_app_wf; lia).
      destruct (H2 (w_app w bs1) W) as [_ H2b]; [unfold w_app; simpl; lia|].
      rewrite w_app_len in H2b by lia.
      destruct H2b as (e & k2 & K0 & K1 & K2 & ->); [lia|].
      exists e, (length bs1 + k2). repeat split; try lia; auto.
      rewrite firstn_app_2. rewrite w_app_app; [reflexivity|]. rewrite firstn_length. lia.
    + destruct (H1b F) as (e & k1 & K0 & K1 & K2 & ->). exists e, k1. repeat split; try lia; auto.
      rewrite firstn_app. replace (k1 - length bs1) with 0 by lia. simpl. now rewrite app_nil_r.
Qed.

Lemma write_msg_specS {cfg : Config} {E} id (from : BufferFullError -> E) body (F : E -> Prop) (bs : list N) buf :
  F (from BufferFull) -> emitsS 2 body F bs (2 + length bs) ->
  let total := [SPDM_VERSION id; SPDM_CODE id] ++ bs in
  (length total <= length buf ->
   write_msg id from body buf = (Ok (length total), total ++ skipn (length total) buf)) /\
  (length buf < length total ->
   exists e k, F e /\ k <= length buf /\
     write_msg id from body buf = (Err e, firstn k total ++ skipn k buf)).
Proof.
  intros HF H total.
  assert (E1 : emitsS 0 (map_err from (write_header id) ;;; body) F
                     ([SPDM_VERSION id; SPDM_CODE id] ++ bs) (2 + length bs)).
  { eapply emitsS_bind; [|exact H]. eapply emitsS_of; [|exact HF]. eapply emits_map_err; [apply emits_header|reflexivity]. }
  specialize (E1 (writer_new buf)). destruct E1 as [Ea Eb]; [unfold w_wf; simpl; lia|reflexivity|].
  simpl in Ea, Eb. unfold write_msg, total. simpl length. split; intros L.
  - rewrite Ea by lia. reflexivity.
  - destruct Eb as (e & k & K0 & K1 & K2 & ->); [lia|]. exists e, k. split; [auto|]. split; [lia|].
    unfold w_app; simpl. f_equal. rewrite firstn_length. simpl length.
    now replace (Nat.min k (S (S (length bs)))) with k by lia.
Qed.

(** Decompose a writer program along its structure. *)
Ltac emits_step :=
  match goal with
  | |- emits _ (bind _ _) _ _ _ => eapply emits_bind
  | |- emits _ (map_err _ _) _ _ _ => eapply emits_map_err; [|reflexivity]
  | |- emits _ (ret _) _ _ _ => apply emits_ret
  | |- emits _ w_offset _ _ _ => apply emits_offset
  | |- emits _ (put _) _ _ _ => apply emits_put
  | |- emits _ (w_extend _) _ _ _ => apply emits_extend
  | |- emits _ (put_reserved _) _ _ _ => apply emits_put_reserved
  | |- emits _ (put_u16 _) _ _ _ => apply emits_put_u16
  | |- emits _ (put_u24 _) _ _ _ => apply emits_put_u24
  | |- emits _ (put_u32 _) _ _ _ => apply emits_put_u32
  | |- emits _ (lift (Ok _)) _ _ _ => apply emits_lift; reflexivity
  end.
Ltac emits_go := repeat (emits_step; cbv beta).
