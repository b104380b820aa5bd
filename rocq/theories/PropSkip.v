(** C03, continued: every outcome of [skip_reserved] and [skip_ignored]. *)
From Verif Require Import Base BaseLemmas Config Encoding ReaderLogic SpecWire PropEncoding.

Section PropSkip.
Context {cfg : Config}.

Lemma byte_here r b rest : r_bit r = 0 -> unread r = b :: rest ->
  get_byte r = (Ok b, advanced r 1) /\ unread (advanced r 1) = rest /\ r_bit (advanced r 1) = 0.
Proof.
  intros H0 H. unfold unread in H.
  assert (L : r_byte r < length (r_buf r)) by (apply (f_equal (@length N)) in H; rewrite skipn_length in H; cbn in H; lia).
  assert (E : nth_error (r_buf r) (r_byte r) = Some b).
  { rewrite <- (firstn_skipn (r_byte r) (r_buf r)), H, nth_error_app2; rewrite firstn_length_le by lia; [|lia]. now rewrite Nat.sub_diag. }
  split; [|split; [|exact H0]].
  - unfold get_byte, r_is_aligned, r_is_empty, r_index. rewrite H0, E. cbn [Nat.eqb negb].
    destruct (Nat.eqb_spec (length (r_buf r)) (r_byte r)); [lia|]. unfold r_adv, advanced. now rewrite H0.
  - unfold unread, advanced. cbn. rewrite Nat.add_comm. cbn [Nat.add].
    replace (S (r_byte r)) with (1 + r_byte r) by lia.
    rewrite <- (firstn_skipn (r_byte r) (r_buf r)) at 1. rewrite H, skipn_app, firstn_length_le by lia.
    rewrite skipn_all2 by (rewrite firstn_length; lia). now replace (1 + r_byte r - r_byte r) with 1 by lia.
Qed.
Lemma no_byte r : reader_ok r -> r_bit r = 0 -> unread r = [] -> get_byte r = (Err BufferEmpty, r).
Proof.
  intros (_ & L & _) H0 H. apply get_byte_empty; [exact H0|]. unfold unread in H. apply (f_equal (@length N)) in H. rewrite skipn_length in H. cbn in H. lia.
Qed.
Lemma adv_ok r b rest : reader_ok r -> r_bit r = 0 -> unread r = b :: rest -> reader_ok (advanced r 1).
Proof.
  intros (A & B & C & D) H0 H. unfold unread in H. apply (f_equal (@length N)) in H. rewrite skipn_length in H. cbn in H.
  unfold reader_ok, advanced. cbn. repeat split; auto; lia.
Qed.
Lemma adv_adv r m : advanced (advanced r 1) m = advanced r (S m).
Proof. unfold advanced. cbn. f_equal. lia. Qed.
Lemma adv_0 r : r_bit r = 0 -> advanced r 0 = r.
Proof. intros H. destruct r. cbn in *. subst. unfold advanced. cbn. now rewrite Nat.add_0_r. Qed.

(** An unaligned reader refuses any skip; otherwise the first byte that is not
    zero is consumed and reported, and running out of data is reported where the
    data ends. *)
Theorem C03_skip_reserved_verdict n r : reader_ok r ->
  (n = 0 -> skip_reserved n r = (Ok tt, r)) /\
  (0 < n -> r_bit r <> 0 -> skip_reserved n r = (Err Unaligned, r)) /\
  (forall k b rest, r_bit r = 0 -> k < n -> unread r = zeros k ++ b :: rest -> b <> 0%N ->
     skip_reserved n r = (Err ReservedByteNotZero, advanced r (S k))) /\
  (forall k, r_bit r = 0 -> k < n -> unread r = zeros k -> skip_reserved n r = (Err BufferEmpty, advanced r k)).
Proof.
  intros Hok. split; [intros ->; reflexivity|]. split.
  { intros Hn H. destruct n; [lia|]. cbn. unfold bind, get_byte, r_is_aligned. destruct (Nat.eqb_spec (r_bit r) 0); [lia|reflexivity]. }
  split.
  - intros k. revert n r Hok. induction k as [|k IH]; intros [|n] r Hok b rest H0 Hn E Hb; try lia; cbn [zeros repeat app] in E.
    + destruct (byte_here r b rest H0 E) as (G & _ & _). unfold skip_reserved. cbn [repeatM]. unfold bind. rewrite G.
      destruct (N.eqb_spec b 0); [contradiction|reflexivity].
    + destruct (byte_here r _ _ H0 E) as (G & U & Z). rewrite <- adv_adv, <- (IH n (advanced r 1) (adv_ok _ _ _ Hok H0 E) b rest Z ltac:(lia) U Hb).
      unfold skip_reserved. cbn [repeatM]. unfold bind at 1 2. rewrite G. reflexivity.
  - intros k. revert n r Hok. induction k as [|k IH]; intros [|n] r Hok H0 Hn E; try lia; cbn [zeros repeat app] in E.
    + unfold skip_reserved. cbn [repeatM]. unfold bind. rewrite (no_byte r Hok H0 E). now rewrite adv_0.
    + destruct (byte_here r _ _ H0 E) as (G & U & Z). rewrite <- adv_adv, <- (IH n (advanced r 1) (adv_ok _ _ _ Hok H0 E) Z ltac:(lia) U).
      unfold skip_reserved. cbn [repeatM]. unfold bind at 1 2. rewrite G. reflexivity.
Qed.
(** Those are all the cases: what is left starts with [n] zeros, with fewer
    followed by another byte, or is nothing but fewer than [n] zeros. *)
Theorem C03_skip_reserved_cases n (data : list N) :
  (exists rest, data = zeros n ++ rest) \/
  (exists k b rest, k < n /\ data = zeros k ++ b :: rest /\ b <> 0%N) \/
  (exists k, k < n /\ data = zeros k).
Proof.
  revert data. induction n as [|n IH]; intros data; [left; now exists data|].
  destruct data as [|b data]; [right; right; exists 0; split; [lia|reflexivity]|].
  destruct (N.eq_dec b 0) as [->|Hb].
  - destruct (IH data) as [(rest & ->)|[(k & c & rest & Hk & -> & Hc)|(k & Hk & ->)]].
    + left. now exists rest.
    + right. left. exists (S k), c, rest. repeat split; auto. lia.
    + right. right. exists (S k). split; [lia|reflexivity].
  - right. left. exists 0, b, data. repeat split; auto. lia.
Qed.
Theorem C03_skip_ignored n r : reader_ok r ->
  (n = 0 -> skip_ignored n r = (Ok tt, r)) /\
  (0 < n -> r_bit r <> 0 -> skip_ignored n r = (Err Unaligned, r)) /\
  (r_bit r = 0 -> n <= length (unread r) -> skip_ignored n r = (Ok tt, advanced r n)) /\
  (r_bit r = 0 -> length (unread r) < n -> skip_ignored n r = (Err BufferEmpty, advanced r (length (unread r)))).
Proof.
  intros Hok. split; [intros ->; reflexivity|]. split.
  { intros Hn H. destruct n; [lia|]. cbn. unfold bind, get_byte, r_is_aligned. destruct (Nat.eqb_spec (r_bit r) 0); [lia|reflexivity]. }
  split.
  - revert r Hok. induction n as [|n IH]; intros r Hok H0 L.
    + unfold skip_ignored. cbn. now rewrite adv_0.
    + destruct (unread r) as [|b rest] eqn:E; cbn in L; [lia|].
      destruct (byte_here r b rest H0 E) as (G & U & Z). rewrite <- adv_adv, <- (IH (advanced r 1) (adv_ok _ _ _ Hok H0 E) Z) by (rewrite U; lia).
      unfold skip_ignored. cbn [repeatM]. unfold bind at 1 2. now rewrite G.
  - revert r Hok. induction n as [|n IH]; intros r Hok H0 L; [lia|].
    destruct (unread r) as [|b rest] eqn:E; cbn [length] in *.
    + unfold skip_ignored. cbn [repeatM]. unfold bind. rewrite (no_byte r Hok H0 E). now rewrite adv_0.
    + destruct (byte_here r b rest H0 E) as (G & U & Z).
      pose proof (IH (advanced r 1) (adv_ok _ _ _ Hok H0 E) Z) as X. rewrite U in X. rewrite <- adv_adv, <- X by lia.
      unfold skip_ignored. cbn [repeatM]. unfold bind at 1 2. now rewrite G.
Qed.
End PropSkip.

Example C03_skip_example :
  skip_reserved 3 (mkReader [9; 0; 7; 0]%N 1 0) = (Err ReservedByteNotZero, mkReader [9; 0; 7; 0]%N 3 0) /\
  skip_reserved 3 (mkReader [9; 0; 0]%N 1 0) = (Err BufferEmpty, mkReader [9; 0; 0]%N 3 0) /\
  skip_reserved 3 (mkReader [9; 0; 0]%N 1 2) = (Err Unaligned, mkReader [9; 0; 0]%N 1 2) /\
  skip_ignored 2 (mkReader [9; 1; 2]%N 1 0) = (Ok tt, mkReader [9; 1; 2]%N 3 0).
Proof. repeat split. Qed.
Print Assumptions C03_skip_reserved_verdict.
Print Assumptions C03_skip_ignored.
