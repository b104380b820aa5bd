(** C43: the raw to DER signature conversion. *)
From Verif Require Import Base BaseLemmas Config MsgCommon Encoding Crypto SpecWire Sample PropTools.

(** [m] writes [bs] at [at_] of any buffer with room for it and returns [a], and
    panics in any other buffer that reaches up to [at_]. *)
Definition o_emits {A} (at_ : nat) (m : OutM A) (bs : list N) (a : A) : Prop :=
  forall out, at_ <= length out ->
    if at_ + length bs <=? length out then m out = (Ok a, firstn at_ out ++ bs ++ skipn (at_ + length bs) out)
    else exists p, fst (m out) = Panic p.
Lemma o_emits_ret {A} at_ (a : A) : o_emits at_ (ret a) [] a.
Proof. intros out H. cbn [length]. rewrite Nat.add_0_r. apply Nat.leb_le in H as ->. simpl. rewrite firstn_skipn. reflexivity. Qed.
Lemma o_emits_lift {A} at_ (a : A) r : r = Ok a -> o_emits at_ (lift r) [] a.
Proof. intros -> . apply o_emits_ret. Qed.
Lemma o_emits_slice at_ : o_emits at_ (o_slice at_) [] tt.
Proof.
  intros out H. cbn [length]. rewrite Nat.add_0_r. apply Nat.leb_le in H. unfold o_slice. rewrite H. simpl. rewrite firstn_skipn. reflexivity.
Qed.
Lemma o_emits_set at_ v : o_emits at_ (o_set at_ v) [v] tt.
Proof.
  intros out H. cbn [length]. unfold o_set. destruct (Nat.leb_spec (at_ + 1) (length out)), (Nat.ltb_spec at_ (length out)); try lia.
  - rewrite upd_split by lia. now rewrite Nat.add_1_r.
  - eexists. reflexivity.
Qed.
Lemma o_emits_copy at_ bs : o_emits at_ (o_copy at_ bs) bs tt.
Proof. intros out H. unfold o_copy. destruct (at_ + length bs <=? length out); [reflexivity|eexists; reflexivity]. Qed.
Lemma o_emits_bind {A B} at_ (m : OutM A) (k : A -> OutM B) bs1 a bs2 b :
  o_emits at_ m bs1 a -> o_emits (at_ + length bs1) (k a) bs2 b -> o_emits at_ (bind m k) (bs1 ++ bs2) b.
Proof.
  intros H1 H2 out H. rewrite app_length. specialize (H1 out H). unfold bind.
  destruct (Nat.leb_spec (at_ + length bs1) (length out)) as [L1|L1].
  - rewrite H1. assert (LO : length (firstn at_ out ++ bs1 ++ skipn (at_ + length bs1) out) = length out)
      by (rewrite !app_length, firstn_length, skipn_length; lia).
    specialize (H2 (firstn at_ out ++ bs1 ++ skipn (at_ + length bs1) out)). rewrite LO in H2. specialize (H2 L1).
    rewrite Nat.add_assoc. destruct (Nat.leb_spec (at_ + length bs1 + length bs2) (length out)) as [L2|L2]; [|exact H2].
    rewrite H2. f_equal.
    assert (L : length (firstn at_ out ++ bs1) = at_ + length bs1) by (rewrite app_length, firstn_length; lia).
    rewrite (app_assoc (firstn at_ out) bs1). rewrite (firstn_app_exact (firstn at_ out ++ bs1)) by lia.
    rewrite (skipn_app _ (firstn at_ out ++ bs1)), L.
    replace (at_ + length bs1 + length bs2 - (at_ + length bs1)) with (length bs2) by lia.
    rewrite (skipn_all2 (firstn at_ out ++ bs1)) by lia. simpl. rewrite skipn_skipn', <- !app_assoc.
    do 4 f_equal.
  - destruct (Nat.leb_spec (at_ + (length bs1 + length bs2)) (length out)); [lia|]. destruct H1 as (p & E).
    destruct (m out) as [r o]. cbn [fst] in E. subst r. exists p. reflexivity.
Qed.
Lemma o_emits_eq {A} at_ (m : OutM A) bs a bs' a' : o_emits at_ m bs a -> bs = bs' -> a = a' -> o_emits at_ m bs' a'.
Proof. now intros H <- <-. Qed.

Lemma der_len_length n : length (der_len n) = der_length n.
Proof. unfold der_len, der_length. destruct (n <? 128); [auto|]. destruct (n <? 256); auto. Qed.
Lemma o_emits_der_length at_ n : (N.of_nat n < 65536)%N -> o_emits at_ (write_der_length at_ n) (der_len n) (der_length n).
Proof.
  intros Hn. unfold write_der_length, der_len, der_length.
  destruct (Nat.ltb_spec n 128).
  - eapply o_emits_eq; [eapply o_emits_bind; [apply o_emits_set|apply o_emits_ret]|reflexivity|reflexivity].
  - destruct (Nat.ltb_spec n 256).
    + eapply o_emits_eq; [eapply o_emits_bind; [apply o_emits_set|eapply o_emits_bind; [apply o_emits_set|apply o_emits_ret]]|reflexivity|reflexivity].
    + destruct (N.ltb_spec (N.of_nat n) 65536); [|lia]. simpl negb. cbn iota.
      replace (at_ + 2) with (at_ + length [0x82%N] + length [(N.of_nat n / 256)%N]) by (simpl; lia).
      eapply o_emits_eq; [eapply o_emits_bind; [apply o_emits_set|eapply o_emits_bind; [apply o_emits_set|
        eapply o_emits_bind; [apply o_emits_set|apply o_emits_ret]]]|reflexivity|reflexivity].
Qed.

(** The content octets of a stripped integer. *)
Definition padded (i : list N) : list N :=
  match i with [] => [] | b :: _ => if (N.land b 0x80 =? 0)%N then i else 0%N :: i end.
Lemma pad_len i p : pad_of (E := Empty_set) i = Ok p -> length (padded i) = length i + p /\ (p = 0 \/ p = 1) /\
   padded i = (if p =? 1 then [0%N] else []) ++ i.
Proof.
  destruct i as [|b r]; simpl; [discriminate|]. intros [= <-]. destruct (N.land b 0x80 =? 0)%N; simpl; split; lia || auto.
Qed.
Lemma o_emits_integer at_ i : i <> [] -> (N.of_nat (length (padded i)) < 65536)%N ->
  o_emits at_ (integer_to_der at_ i) ([0x02]%N ++ der_len (length (padded i)) ++ padded i)
          (1 + der_length (length (padded i)) + length (padded i)).
Proof.
  intros Hi Hl. unfold integer_to_der.
  destruct (pad_of i) as [p|[]|q] eqn:Ep; [|destruct i; [congruence|discriminate]].
  destruct (pad_len i p Ep) as (L & Hp & E). rewrite L in *.
  eapply o_emits_eq.
  - eapply o_emits_bind; [apply o_emits_lift; reflexivity|].
    eapply o_emits_bind; [rewrite Nat.add_0_r; apply o_emits_set|].
    eapply o_emits_bind; [simpl length; rewrite Nat.add_0_r; apply o_emits_slice|].
    eapply o_emits_bind; [simpl length; rewrite !Nat.add_0_r; apply o_emits_der_length; lia|].
    simpl length. rewrite der_len_length, !Nat.add_0_r.
    eapply o_emits_bind with (bs1 := if p =? 1 then [0%N] else []) (a := 1 + der_length (length i + p) + p).
    + destruct Hp as [-> | ->]; simpl.
      * eapply o_emits_eq; [apply o_emits_ret|reflexivity|lia].
      * replace (at_ + S (der_length (length i + 1))) with (at_ + 1 + der_length (length i + 1)) by lia.
        eapply o_emits_eq; [eapply o_emits_bind; [apply o_emits_set|apply o_emits_ret]|reflexivity|lia].
    + assert (Q : at_ + 1 + der_length (length i + p) + length (if p =? 1 then [0%N] else []) =
                 at_ + (1 + der_length (length i + p) + p)) by (destruct Hp as [-> | ->]; simpl; lia). rewrite Q.
      eapply o_emits_bind; [apply o_emits_slice|]. eapply o_emits_bind; [simpl length; rewrite Nat.add_0_r; apply o_emits_copy|apply o_emits_ret].
  - rewrite E. simpl. now rewrite app_nil_r.
  - lia.
Qed.

Lemma first_nonzero_spec i : (first_nonzero i = None <-> be_val i = 0%N) /\
  forall k, first_nonzero i = Some k -> k < length i /\ be_val (skipn k i) = be_val i /\
     exists b r, skipn k i = b :: r /\ b <> 0%N.
Proof.
  induction i as [|b r [IH1 IH2]]; simpl.
  - split; [tauto|discriminate].
  - destruct (N.eqb_spec b 0) as [->|Hb].
    + split.
      * destruct (first_nonzero r); simpl; [|tauto]. split; [discriminate|]. intros H.
        assert (X : be_val r = 0%N) by lia. apply IH1 in X. discriminate.
      * intros k. destruct (first_nonzero r) as [j|]; [|discriminate]. intros [= <-].
        destruct (IH2 j eq_refl) as (H1 & H2 & H3). simpl. split; [lia|]. split; [lia|auto].
    + split.
      * split; [discriminate|]. intros H. pose proof (N.pow_nonzero 256 (N.of_nat (length r))) as P. 
        assert (b * 256 ^ N.of_nat (length r) <> 0)%N by (apply N.neq_mul_0; split; [auto|apply P; lia]). lia.
      * intros k [= <-]. simpl. split; [lia|]. split; [auto|eauto].
Qed.
Lemma land128 b : (b < 256)%N -> (N.land b 0x80 =? 0)%N = (b <? 128)%N.
Proof.
  intros H. assert (E : N.of_nat (N.to_nat b) = b) by lia. rewrite <- E.
  assert (L : (N.to_nat b < 256)) by lia. revert L. generalize (N.to_nat b). clear.
  intros n L. assert (F : forallb (fun n => Bool.eqb (N.land (N.of_nat n) 0x80 =? 0)%N (N.of_nat n <? 128)%N) (seq 0 256) = true)
    by (vm_compute; reflexivity).
  rewrite forallb_forall in F. apply eqb_prop, F. apply in_seq. lia.
Qed.
Lemma padded_uint b r : bytes (b :: r) -> b <> 0%N ->
  minimal_uint (padded (b :: r)) /\ be_val (padded (b :: r)) = be_val (b :: r) /\ bytes (padded (b :: r)).
Proof.
  intros Hb Hz. inversion Hb as [|? ? H1 H2]; subst. red in H1. unfold padded. rewrite land128 by auto.
  destruct (N.ltb_spec b 128).
  - split; [|split; auto]. destruct r; simpl; [auto|]. split; [auto|]. intros ->. congruence.
  - split; [simpl; split; [lia|auto]|]. split; [simpl; lia|]. constructor; [red; lia|auto].
Qed.

(** A signature whose halves are not zero, in any buffer: when the DER encoding of
    the two numbers fits, it is written, and otherwise the call panics. *)
Theorem C43_any_buffer sig out : (N.of_nat (length sig) < 65000)%N -> bytes sig ->
  be_val (firstn (length sig / 2) sig) <> 0%N -> be_val (skipn (length sig / 2) sig) <> 0%N ->
  exists enc, der_signature enc (be_val (firstn (length sig / 2) sig)) (be_val (skipn (length sig / 2) sig)) /\
    if length enc <=? length out then bin_to_der sig out = (Ok (length enc), enc ++ skipn (length enc) out)
    else exists p, fst (bin_to_der sig out) = Panic p.
Proof.
  intros Hm Hb Hr Hs. set (k := length sig / 2) in *.
  set (r := firstn k sig) in *. set (s := skipn k sig) in *.
  assert (Lr : length r <= length sig) by (unfold r; rewrite firstn_length; lia).
  assert (Ls : length s <= length sig - k) by (unfold s; rewrite skipn_length; lia).
  assert (Lrs : length r + length s = length sig) by (unfold r, s; rewrite <- app_length, firstn_skipn; reflexivity).
  assert (Br : bytes r) by (apply bytes_firstn; auto). assert (Bs : bytes s) by (apply bytes_skipn; auto).
  destruct (first_nonzero_spec r) as [R1 R2]. destruct (first_nonzero_spec s) as [S1 S2].
  destruct (first_nonzero r) as [rs|] eqn:Er; [|destruct Hr; tauto]. destruct (R2 rs eq_refl) as (R3 & R4 & rb & rr & R5 & R6).
  destruct (first_nonzero s) as [ss|] eqn:Es; [|destruct Hs; tauto]. destruct (S2 ss eq_refl) as (S3 & S4 & sb & sr & S5 & S6).
  set (pr := padded (skipn rs r)). set (ps := padded (skipn ss s)).
  assert (Qr : minimal_uint pr /\ be_val pr = be_val r /\ bytes pr).
  { unfold pr. rewrite <- R4, R5. apply padded_uint; auto. rewrite <- R5. now apply bytes_skipn. }
  assert (Qs : minimal_uint ps /\ be_val ps = be_val s /\ bytes ps).
  { unfold ps. rewrite <- S4, S5. apply padded_uint; auto. rewrite <- S5. now apply bytes_skipn. }
  assert (Gr : @get_start_and_length Empty_set r = Ok (rs, length pr)).
  { unfold get_start_and_length. rewrite Er. destruct (@pad_of Empty_set (skipn rs r)) as [p|[]|q] eqn:Ep; [|rewrite R5 in Ep; discriminate].
    simpl. destruct (pad_len _ _ Ep) as (L & _). unfold pr. rewrite L, skipn_length. reflexivity. }
  assert (Gs : @get_start_and_length Empty_set s = Ok (ss, length ps)).
  { unfold get_start_and_length. rewrite Es. destruct (@pad_of Empty_set (skipn ss s)) as [p|[]|q] eqn:Ep; [|rewrite S5 in Ep; discriminate].
    simpl. destruct (pad_len _ _ Ep) as (L & _). unfold ps. rewrite L, skipn_length. reflexivity. }
  assert (Lpr : length pr <= length r + 1).
  { unfold pr. destruct (@pad_of Empty_set (skipn rs r)) as [p|[]|q] eqn:Ep; [|rewrite R5 in Ep; discriminate].
    destruct (pad_len _ _ Ep) as (L & [-> | ->] & _); rewrite L, skipn_length; lia. }
  assert (Lps : length ps <= length s + 1).
  { unfold ps. destruct (@pad_of Empty_set (skipn ss s)) as [p|[]|q] eqn:Ep; [|rewrite S5 in Ep; discriminate].
    destruct (pad_len _ _ Ep) as (L & [-> | ->] & _); rewrite L, skipn_length; lia. }
  set (re := [0x02]%N ++ der_len (length pr) ++ pr). set (se := [0x02]%N ++ der_len (length ps) ++ ps).
  assert (Lre : length re = 1 + der_length (length pr) + length pr) by (unfold re; rewrite !app_length, der_len_length; simpl; lia).
  assert (Lse : length se = 1 + der_length (length ps) + length ps) by (unfold se; rewrite !app_length, der_len_length; simpl; lia).
  assert (D3 : forall n, der_length n <= 3) by (intros n; unfold der_length; destruct (n <? 128), (n <? 256); lia).
  assert (Lb : (N.of_nat (length (re ++ se)) < 65536)%N).
  { rewrite app_length, Lre, Lse. pose proof (D3 (length pr)). pose proof (D3 (length ps)). lia. }
  set (enc := [0x30]%N ++ der_len (length (re ++ se)) ++ re ++ se).
  assert (EM : o_emits 0 (bin_to_der sig) enc (length enc)).
  { unfold bin_to_der. fold k. fold r s.
    eapply o_emits_eq.
    - eapply o_emits_bind; [apply o_emits_lift; exact Gr|]. cbv beta iota.
      eapply o_emits_bind; [apply o_emits_lift; exact Gs|]. cbv beta iota.
      eapply o_emits_bind; [apply o_emits_set|]. simpl length.
      eapply o_emits_bind; [apply o_emits_slice|]. simpl length.
      eapply o_emits_bind; [apply o_emits_der_length|].
      + rewrite app_length, Lre, Lse in Lb. lia.
      + replace (2 + length pr + length ps + der_length (length pr) + der_length (length ps)) with (length (re ++ se))
          by (rewrite app_length, Lre, Lse; lia).
        rewrite der_len_length. change (0 + 0 + 0 + 1 + 0) with 1.
        eapply o_emits_bind; [apply o_emits_slice|]. simpl length. rewrite Nat.add_0_r.
        eapply o_emits_bind; [apply o_emits_integer; [rewrite R5; discriminate|fold pr; lia]|]. fold pr. fold re. rewrite <- Lre.
        eapply o_emits_bind; [apply o_emits_slice|]. simpl length. rewrite Nat.add_0_r.
        eapply o_emits_bind; [apply o_emits_integer; [rewrite S5; discriminate|fold ps; lia]|]. fold ps. fold se. apply o_emits_ret.
    - unfold enc. rewrite app_length, Lre, Lse. cbn [app].
      replace (2 + length pr + length ps + der_length (length pr) + der_length (length ps)) with
        (1 + der_length (length pr) + length pr + (1 + der_length (length ps) + length ps)) by lia.
      rewrite app_nil_r. reflexivity.
    - unfold enc. rewrite !app_length, der_len_length. cbn [length]. rewrite Lre, Lse.
      replace (2 + length pr + length ps + der_length (length pr) + der_length (length ps)) with
        (1 + der_length (length pr) + length pr + (1 + der_length (length ps) + length ps)) by lia.
      rewrite der_len_length. cbn [Nat.add]. lia. }
  exists enc. split.
  - exists re, se. split; [exists pr; unfold re; tauto|]. split; [exists ps; unfold se; tauto|]. reflexivity.
  - exact (EM out (Nat.le_0_l _)).
Qed.
Lemma be_val_bound l : bytes l -> (be_val l < 256 ^ N.of_nat (length l))%N.
Proof.
  induction 1 as [|b l B _ IH]; [reflexivity|]. cbn [be_val length]. red in B.
  rewrite Nat2N.inj_succ, N.pow_succ_r'. nia.
Qed.
(** The size of an encoding. *)
Lemma der_uint_length enc v n : der_uint enc v -> (v < 256 ^ N.of_nat n)%N -> 0 < n -> length enc <= 2 + n + der_length (S n).
Proof.
  intros (c & -> & B & M & V) L N0. rewrite !app_length, der_len_length. cbn [length].
  assert (LC : length c <= S n).
  { destruct (Nat.le_gt_cases (length c) (S n)) as [X|X]; [exact X|exfalso]. destruct c as [|b [|b' c]]; cbn [length] in X; try lia.
    destruct M as [M1 M2]. cbn [be_val length] in V. apply N.lt_nge in L. apply L. rewrite <- V.
    assert (P : (256 ^ N.of_nat n <= 256 ^ N.of_nat (length c))%N) by (apply N.pow_le_mono_r; lia).
    destruct (N.eq_dec b 0) as [->|Z].
    - specialize (M2 eq_refl). nia.
    - rewrite Nat2N.inj_succ, N.pow_succ_r by lia. nia. }
  assert (Mo : der_length (length c) <= der_length (S n)).
  { unfold der_length. destruct (Nat.ltb_spec (length c) 128), (Nat.ltb_spec (S n) 128), (Nat.ltb_spec (length c) 256), (Nat.ltb_spec (S n) 256); lia. }
  lia.
Qed.

Section C43.
Context {cfg : Config}.
(** Every signature of even length up to MAX_SIGNATURE_SIZE with non-zero halves
    is converted, in a buffer of max_encoded_size bytes; the side conditions
    hold for MAX_SIGNATURE_SIZE = 64, the only value build.rs generates. *)
Theorem C43_bin_to_der sig k :
  length sig = 2 * k -> length sig <= MAX_SIGNATURE_SIZE -> (N.of_nat MAX_SIGNATURE_SIZE < 65000)%N ->
  MAX_SIGNATURE_SIZE / 2 <> 127 -> MAX_SIGNATURE_SIZE / 2 <> 255 ->
  bytes sig -> be_val (firstn k sig) <> 0%N -> be_val (skipn k sig) <> 0%N ->
  exists n out, bin_to_der sig (repeat 0%N max_encoded_size) = (Ok n, out) /\
    n <= max_encoded_size /\ length out = max_encoded_size /\
    der_signature (firstn n out) (be_val (firstn k sig)) (be_val (skipn k sig)).
Proof.
  intros Hk Hl Hm N1 N2 Hb Hr Hs.
  assert (EK : length sig / 2 = k) by (rewrite Hk, Nat.mul_comm, Nat.div_mul; lia).
  destruct (C43_any_buffer sig (repeat 0%N max_encoded_size)) as (enc & DS & M); rewrite ?EK; auto; [lia|]. rewrite EK in DS.
  assert (K0 : 0 < k). { destruct k; [|lia]. destruct sig; [|discriminate]. exfalso. apply Hr. reflexivity. }
  assert (Le : length enc <= max_encoded_size).
  { pose proof DS as (re & se & DR & DSE & ->).
    assert (Hk2 : k <= MAX_SIGNATURE_SIZE / 2) by (apply Nat.div_le_lower_bound; lia).
    pose proof (Nat.div_mod MAX_SIGNATURE_SIZE 2 ltac:(lia)) as HM.
    pose proof (Nat.mod_upper_bound MAX_SIGNATURE_SIZE 2 ltac:(lia)) as HM2.
    assert (Mo : forall a b, a <= b -> der_length a <= der_length b).
    { intros a b Hab. unfold der_length. destruct (Nat.ltb_spec a 128), (Nat.ltb_spec b 128), (Nat.ltb_spec a 256), (Nat.ltb_spec b 256); lia. }
    assert (DL : der_length (S k) <= der_length (MAX_SIGNATURE_SIZE / 2)).
    { unfold der_length. destruct (Nat.ltb_spec (S k) 128), (Nat.ltb_spec (S k) 256), (Nat.ltb_spec (MAX_SIGNATURE_SIZE / 2) 128),
        (Nat.ltb_spec (MAX_SIGNATURE_SIZE / 2) 256); lia. }
    pose proof (der_uint_length re _ k DR) as L1. pose proof (der_uint_length se _ k DSE) as L2.
    assert (B1 : (be_val (firstn k sig) < 256 ^ N.of_nat k)%N).
    { replace (N.of_nat k) with (N.of_nat (length (firstn k sig))) by (rewrite firstn_length; f_equal; lia). apply be_val_bound. now apply bytes_firstn. }
    assert (B2 : (be_val (skipn k sig) < 256 ^ N.of_nat k)%N).
    { replace (N.of_nat k) with (N.of_nat (length (skipn k sig))) by (rewrite skipn_length; f_equal; lia). apply be_val_bound. now apply bytes_skipn. }
    specialize (L1 B1 K0). specialize (L2 B2 K0).
    unfold max_encoded_size. rewrite 2!app_length, der_len_length. cbn [length].
    assert (Lb : length (re ++ se) <= MAX_SIGNATURE_SIZE + 2 + 2 * 1 + der_length (MAX_SIGNATURE_SIZE / 2) * 2) by (rewrite app_length; lia).
    specialize (Mo _ _ Lb). lia. }
  rewrite repeat_length in M. pose proof Le as Le1. apply Nat.leb_le in Le1. rewrite Le1 in M.
  exists (length enc), (enc ++ skipn (length enc) (repeat 0%N max_encoded_size)). split; [exact M|]. split; [exact Le|].
  split; [rewrite app_length, skipn_length, repeat_length; lia|]. rewrite firstn_app_exact by reflexivity. exact DS.
Qed.
(** A half that is zero is not converted: the call panics. *)
Theorem C43_zero_half_panics sig k out : length sig = 2 * k ->
  be_val (firstn k sig) = 0%N \/ be_val (skipn k sig) = 0%N ->
  exists p, fst (bin_to_der sig out) = Panic p.
Proof.
  intros Hk H. unfold bin_to_der. replace (length sig / 2) with k by (rewrite Hk, Nat.mul_comm, Nat.div_mul; lia).
  unfold bind at 1, lift at 1. unfold get_start_and_length at 1.
  destruct (first_nonzero_spec (firstn k sig)) as [R1 R2]. destruct (first_nonzero_spec (skipn k sig)) as [S1 S2].
  destruct (first_nonzero (firstn k sig)) as [rs|]; [|simpl; eauto].
  destruct (R2 rs eq_refl) as (_ & _ & b & r & -> & _). simpl rbind. cbv iota beta.
  destruct H as [H|H]; [apply R1 in H; discriminate|]. apply S1 in H.
  unfold bind at 1, lift at 1. unfold get_start_and_length at 1. rewrite H. simpl. eauto.
Qed.
(** Canonical encodings determine the two numbers: the conversion loses nothing. *)
Lemma der_len_inj_app a b x y : length x = a -> length y = b -> (N.of_nat a < 65536)%N -> (N.of_nat b < 65536)%N ->
  forall p q, der_len a ++ x ++ p = der_len b ++ y ++ q -> x = y /\ p = q.
Proof.
  intros Ha Hb La Lb p q E. assert (a = b).
  { unfold der_len in E. destruct (Nat.ltb_spec a 128), (Nat.ltb_spec b 128); simpl in E.
    - injection E as E _. lia.
    - destruct (Nat.ltb_spec b 256); injection E; lia.
    - destruct (Nat.ltb_spec a 256); injection E; lia.
    - destruct (Nat.ltb_spec a 256), (Nat.ltb_spec b 256); simpl in E; injection E; intros; lia. }
  rewrite <- H in E, Hb. apply app_inv_head in E. revert E. clear -Ha Hb.
  revert y a Ha Hb. induction x as [|u x IH]; intros [|v y] a Ha Hb E; simpl in *; try lia; auto.
  injection E as -> E. destruct (IH y (length x) eq_refl ltac:(lia) E). subst. auto.
Qed.
(** One DER encoding (of less than 64 KiB) stands for only one pair of numbers. *)
Theorem C43_der_unambiguous enc r s r' s' : (N.of_nat (length enc) < 65536)%N ->
  der_signature enc r s -> der_signature enc r' s' -> r = r' /\ s = s'.
Proof.
  intros L (re & se & (cr & -> & _ & _ & Vr) & (cs & -> & _ & _ & Vs) & E1)
           (re' & se' & (cr' & -> & _ & _ & Vr') & (cs' & -> & _ & _ & Vs') & E2).
  set (X := ([2%N] ++ der_len (length cr) ++ cr) ++ [2%N] ++ der_len (length cs) ++ cs) in *.
  set (Y := ([2%N] ++ der_len (length cr') ++ cr') ++ [2%N] ++ der_len (length cs') ++ cs') in *.
  assert (L1 : length X <= length enc) by (rewrite E1, !app_length; lia).
  assert (L2 : length Y <= length enc) by (rewrite E2, !app_length; lia).
  rewrite E1 in E2. apply app_inv_head in E2. apply (f_equal (fun l => l ++ [])) in E2. rewrite <- !app_assoc in E2.
  apply der_len_inj_app in E2; try reflexivity; try lia.
  assert (L3 : length cr < length X /\ length cs < length X) by (unfold X; rewrite !app_length; simpl; lia).
  assert (L4 : length cr' < length Y /\ length cs' < length Y) by (unfold Y; rewrite !app_length; simpl; lia).
  unfold X, Y in E2.
  destruct E2 as [E2 _]. cbn [app] in E2. injection E2 as E2. rewrite <- !app_assoc in E2.
  apply der_len_inj_app in E2; try reflexivity; [|lia|lia]. destruct E2 as [-> E2].
  cbn [app] in E2. injection E2 as E2. apply (f_equal (fun l => l ++ [])) in E2. rewrite <- !app_assoc in E2.
  apply der_len_inj_app in E2; try reflexivity; [|lia|lia]. destruct E2 as [-> _]. subst. auto.
Qed.
(** ... and one encoding per signature: DER is canonical. *)
Lemma be_val_inj a b : length a = length b -> bytes a -> bytes b -> be_val a = be_val b -> a = b.
Proof.
  intros L Ha. revert b L. induction Ha as [|x l B F IH]; intros [|y r] L Hb E1; try discriminate; [reflexivity|].
  apply Forall_inv in Hb as Hy. apply Forall_inv_tail in Hb. simpl in L. injection L as L.
  pose proof (be_val_bound l F) as B1. pose proof (be_val_bound r Hb) as B2. cbn [be_val] in E1. rewrite <- L in *.
  assert (x = y) as <- by nia. f_equal. apply IH; auto. nia.
Qed.
Lemma minimal_bounds c n : bytes c -> minimal_uint c -> length c = S n ->
  (be_val c < 128 * 256 ^ N.of_nat n)%N /\ (match n with O => True | S k => 128 * 256 ^ N.of_nat k <= be_val c end)%N.
Proof.
  intros HB M L. destruct c as [|b [|b' r]]; [contradiction|..].
  - simpl in L. injection L as <-. cbn [be_val length]. simpl in M. change (256 ^ N.of_nat 0)%N with 1%N. split; [lia|auto].
  - simpl in L. injection L as <-. destruct M as [M1 M2]. apply Forall_inv_tail in HB as HT.
    apply Forall_inv_tail in HT as HT'. pose proof (be_val_bound _ HT) as B1.
    cbn [be_val length] in *. rewrite Nat2N.inj_succ, N.pow_succ_r' in *.
    set (P := (256 ^ N.of_nat (length r))%N) in *.
    assert (0 < P)%N by (unfold P; apply N.neq_0_lt_0, N.pow_nonzero; discriminate).
    split; [nia|]. destruct (N.eq_dec b 0) as [->|D]; [specialize (M2 eq_refl); nia|nia].
Qed.
Lemma pow_mono_le a b : a <= b -> (256 ^ N.of_nat a <= 256 ^ N.of_nat b)%N.
Proof. intros. apply N.pow_le_mono_r; lia. Qed.
Lemma minimal_unique a b : bytes a -> bytes b -> minimal_uint a -> minimal_uint b -> be_val a = be_val b -> a = b.
Proof.
  intros Ba Bb Ma Mb E1. assert (L : length a = length b); [|now apply be_val_inj].
  destruct (length a) as [|n] eqn:La; [destruct a; [contradiction|discriminate]|].
  destruct (length b) as [|m] eqn:Lb; [destruct b; [contradiction|discriminate]|].
  destruct (minimal_bounds a n Ba Ma La) as [A1 A2]. destruct (minimal_bounds b m Bb Mb Lb) as [B1 B2].
  destruct (lt_eq_lt_dec n m) as [[H|H]|H]; [|congruence|].
  - destruct m as [|k]; [lia|]. pose proof (pow_mono_le n k ltac:(lia)). lia.
  - destruct n as [|k]; [lia|]. pose proof (pow_mono_le m k ltac:(lia)). lia.
Qed.
Theorem C43_der_canonical enc enc' r s : der_signature enc r s -> der_signature enc' r s -> enc = enc'.
Proof.
  intros (re & se & (cr & -> & B1 & M1 & V1) & (cs & -> & B2 & M2 & V2) & ->)
         (re' & se' & (cr' & -> & B1' & M1' & V1') & (cs' & -> & B2' & M2' & V2') & ->).
  assert (cr = cr') as <- by (apply minimal_unique; congruence).
  assert (cs = cs') as <- by (apply minimal_unique; congruence). reflexivity.
Qed.
(** The buffer is no larger than it has to be: some signature of
    MAX_SIGNATURE_SIZE bytes fills it to the last byte. *)
Theorem C43_bound_attained k :
  MAX_SIGNATURE_SIZE = 2 * k -> 0 < k -> (N.of_nat MAX_SIGNATURE_SIZE < 65000)%N -> k <> 127 -> k <> 255 ->
  exists sig out, length sig = MAX_SIGNATURE_SIZE /\ bytes sig /\
    bin_to_der sig (repeat 0%N max_encoded_size) = (Ok max_encoded_size, out).
Proof.
  intros HM Hk Hm N1 N2.
  assert (HD : MAX_SIGNATURE_SIZE / 2 = k) by (rewrite HM, Nat.mul_comm, Nat.div_mul; lia).
  destruct k as [|j]; [lia|]. set (k := S j) in *.
  set (half := repeat 255%N k).
  assert (Lh : length half = k) by (unfold half; apply repeat_length).
  assert (Bh : bytes half) by (unfold half; apply Forall_forall; intros x Hx; apply repeat_spec in Hx; subst; red; lia).
  assert (Eh : half = 255%N :: repeat 255%N j) by reflexivity.
  assert (Ph : padded half = 0%N :: half) by (rewrite Eh; reflexivity).
  destruct (padded_uint 255 (repeat 255%N j) ltac:(rewrite <- Eh; exact Bh) ltac:(discriminate)) as (M1 & M2 & M3).
  rewrite <- Eh in M1, M2, M3. rewrite Ph in M1, M2, M3.
  assert (Z : be_val half <> 0%N).
  { intros Z. destruct (first_nonzero_spec half) as [R1 R2]. apply R1 in Z. rewrite Eh in Z. discriminate. }
  assert (F1 : firstn k (half ++ half) = half) by (apply firstn_app_exact; auto).
  assert (F2 : skipn k (half ++ half) = half) by (rewrite skipn_app, Lh, Nat.sub_diag, skipn_all2 by lia; reflexivity).
  assert (LS : length (half ++ half) = 2 * k) by (rewrite app_length; lia).
  assert (BS : bytes (half ++ half)) by (apply Forall_app; auto).
  destruct (C43_bin_to_der (half ++ half) k) as (n & out & E1 & E2 & E3 & E4).
  { exact LS. } { lia. } { exact Hm. } { lia. } { lia. } { exact BS. } { rewrite F1; exact Z. } { rewrite F2; exact Z. }
  rewrite F1, F2 in E4.
  set (c := 0%N :: half) in *. assert (Lc : length c = k + 1) by (unfold c; cbn [length]; lia).
  set (re := [0x02]%N ++ der_len (length c) ++ c).
  assert (DR : der_signature ([0x30]%N ++ der_len (length (re ++ re)) ++ re ++ re) (be_val half) (be_val half)).
  { exists re, re. split; [exists c; unfold re; tauto|]. split; [exists c; unfold re; tauto|reflexivity]. }
  pose proof (C43_der_canonical _ _ _ _ E4 DR) as EE. apply (f_equal (@length N)) in EE.
  rewrite firstn_length, E3 in EE.
  assert (Lre : length re = 1 + der_length (length c) + length c) by (unfold re; rewrite !app_length, der_len_length; cbn [length]; lia).
  rewrite 2!app_length, der_len_length in EE. cbn [length] in EE.
  assert (DC : der_length (length c) = der_length k).
  { rewrite Lc. unfold der_length. destruct (Nat.ltb_spec (k + 1) 128), (Nat.ltb_spec (k + 1) 256), (Nat.ltb_spec k 128), (Nat.ltb_spec k 256); lia. }
  assert (LB : length (re ++ re) = MAX_SIGNATURE_SIZE + 2 + 2 * 1 + der_length (MAX_SIGNATURE_SIZE / 2) * 2).
  { rewrite app_length, Lre, DC, HD, Lc, HM. lia. }
  rewrite LB in EE.
  assert (n = max_encoded_size) as -> by (unfold max_encoded_size; lia).
  exists (half ++ half), out. split; [lia|]. split; [exact BS|exact E1].
Qed.
End C43.

#[local] Existing Instance sample_cfg.
(** A 64 byte signature whose r needs a pad byte and whose s has leading zeros. *)
Definition sample_raw_sig : list N := repeat 0xff%N 32 ++ repeat 0%N 30 ++ [0x12; 0x34]%N.
Example C43_nonvacuous : length sample_raw_sig = 2 * 32 /\ length sample_raw_sig <= MAX_SIGNATURE_SIZE /\
  (N.of_nat MAX_SIGNATURE_SIZE < 65000)%N /\ MAX_SIGNATURE_SIZE / 2 <> 127 /\ MAX_SIGNATURE_SIZE / 2 <> 255 /\
  bytes sample_raw_sig /\ be_val (firstn 32 sample_raw_sig) <> 0%N /\ be_val (skipn 32 sample_raw_sig) = 0x1234%N /\
  fst (bin_to_der sample_raw_sig (repeat 0%N max_encoded_size)) = Ok 41.
Proof.
  refine (conj _ (conj _ (conj _ (conj _ (conj _ (conj _ (conj _ (conj _ _)))))))); try reflexivity.
  - discriminate.
  - discriminate.
  - apply bytes_check; reflexivity.
  - discriminate.
Qed.
Example C43_bound_nonvacuous : MAX_SIGNATURE_SIZE = 2 * 32 /\ max_encoded_size = 72 /\
  fst (bin_to_der (repeat 255%N 64) (repeat 0%N max_encoded_size)) = Ok 72.
Proof. refine (conj _ (conj _ _)); reflexivity. Qed.
Print Assumptions C43_bin_to_der.
Print Assumptions C43_bound_attained.
Print Assumptions C43_zero_half_panics.
Print Assumptions C43_der_unambiguous.
