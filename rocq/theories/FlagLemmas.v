(** Flag sets as bit sets. *)
From Verif Require Import Base BaseLemmas SpecWire MsgCapabilities MsgAlgorithms.

Definition mask_of (l : list N) : N := fold_right (fun i a => N.lor (2 ^ i) a) 0%N l.

Lemma testbit_mask l i : N.testbit (mask_of l) i = true <-> In i l.
Proof.
  induction l as [|x l IH]; simpl.
  - rewrite N.bits_0. split; [discriminate|tauto].
  - rewrite N.lor_spec, orb_true_iff, IH, N.pow2_bits_eqb, N.eqb_eq. tauto.
Qed.

Lemma from_bits_only all l bits v : all = mask_of l ->
  from_bits all bits = Some v <-> v = bits /\ only_bits l bits.
Proof.
  intros ->. unfold from_bits, only_bits. destruct (N.eqb_spec (N.land bits (mask_of l)) bits) as [H|H].
  - split.
    + intros [= <-]. split; auto. intros i Hi. rewrite <- H, N.land_spec, andb_true_iff in Hi.
      now apply testbit_mask.
    + now intros [-> _].
  - split; [discriminate|]. intros [_ H2]. exfalso. apply H. apply N.bits_inj. intros i.
    rewrite N.land_spec. destruct (N.testbit bits i) eqn:E; auto. simpl. now apply testbit_mask, H2.
Qed.

Lemma from_bits_None all l bits : all = mask_of l -> from_bits all bits = None <-> ~ only_bits l bits.
Proof.
  intros Hl. pose proof (from_bits_only all l bits bits Hl) as H.
  unfold from_bits in *. destruct (N.land bits all =? bits)%N; split; try congruence; intros; intuition congruence.
Qed.

Lemma pos_ones_pos p : 1 <= pos_ones p.
Proof. induction p; simpl; lia. Qed.

Lemma count_ones_1 n : count_ones n = 1 <-> exists i, n = (2 ^ i)%N.
Proof.
  split.
  - destruct n as [|p]; simpl; [discriminate|]. intros H.
    assert (exists k : nat, N.pos p = (2 ^ N.of_nat k)%N) as [k Hk]; [|eauto].
    induction p as [p IH|p IH|]; simpl in H.
    + pose proof (pos_ones_pos p). lia.
    + destruct (IH H) as [k Hk]. exists (S k). rewrite Nat2N.inj_succ, N.pow_succ_r', <- Hk. reflexivity.
    + exists 0. reflexivity.
  - intros [i ->]. rewrite <- (N2Nat.id i). induction (N.to_nat i) as [|k IH].
    + reflexivity.
    + rewrite Nat2N.inj_succ, N.pow_succ_r'. destruct (2 ^ N.of_nat k)%N eqn:E; [discriminate IH|exact IH].
Qed.

Lemma one_bit_iff l v : only_bits l v /\ count_ones v = 1 <-> one_bit_of l v.
Proof.
  rewrite count_ones_1. unfold only_bits, one_bit_of. split.
  - intros [H [i ->]]. exists i. split; auto. apply H. now rewrite N.pow2_bits_true.
  - intros (i & Hi & ->). split; [|eauto]. intros k. rewrite N.pow2_bits_eqb, N.eqb_eq. now intros ->.
Qed.

Lemma ReqFlags_all_mask : ReqFlags_all = mask_of req_flag_bits. Proof. reflexivity. Qed.
Lemma RspFlags_all_mask : RspFlags_all = mask_of rsp_flag_bits. Proof. reflexivity. Qed.
Lemma BaseAsymAlgo_all_mask : BaseAsymAlgo_all = mask_of asym_bits. Proof. reflexivity. Qed.
Lemma BaseHashAlgo_all_mask : BaseHashAlgo_all = mask_of hash_bits. Proof. reflexivity. Qed.
Lemma MeasurementSpec_all_mask : MeasurementSpec_all = mask_of meas_spec_bits. Proof. reflexivity. Qed.
Lemma Dhe_all_mask : Dhe_all = mask_of [0; 1; 2; 3; 4; 5]%N. Proof. reflexivity. Qed.
Lemma Aead_all_mask : Aead_all = mask_of [0; 1; 2]%N. Proof. reflexivity. Qed.
Lemma ReqBaseAsym_all_mask : ReqBaseAsym_all = mask_of [0; 1; 2; 3; 4; 5; 6; 7; 8]%N. Proof. reflexivity. Qed.
Lemma KeySchedule_all_mask : KeySchedule_all = mask_of [0]%N. Proof. reflexivity. Qed.

(** Sets over bits below [k] are below [2^k]. *)
Lemma only_bits_bound l v k : (forall i, In i l -> (i < k)%N) -> only_bits l v -> (v < 2 ^ k)%N.
Proof.
  intros Hl H. destruct (N.lt_ge_cases v (2 ^ k)) as [|G]; auto. exfalso.
  assert (v <> 0)%N by (intros ->; pose proof (N.pow_nonzero 2 k); lia).
  pose proof (N.bit_log2 v ltac:(auto)) as B. apply H, Hl in B.
  apply N.log2_lt_pow2 in B; lia.
Qed.
Lemma bound_check (l : list N) k : forallb (fun i => (i <? k)%N) l = true -> forall i, In i l -> (i < k)%N.
Proof. rewrite forallb_forall. intros H i Hi. now apply N.ltb_lt, H. Qed.
