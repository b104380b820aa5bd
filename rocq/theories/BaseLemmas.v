(** List, bit and little-endian facts used by all proofs. *)
From Verif Require Import Base.

Lemma upd_length {A} (l : list A) i v : length (upd l i v) = length l.
Proof. revert i; induction l; intros [|i]; simpl; auto. Qed.

Lemma upd_split {A} (l : list A) i v :
  i < length l -> upd l i v = firstn i l ++ v :: skipn (S i) l.
Proof.
  revert i; induction l; intros [|i] H; simpl in *; try lia; auto.
  now rewrite IHl by lia.
Qed.

Lemma nth_error_upd_eq {A} (l : list A) i v : i < length l -> nth_error (upd l i v) i = Some v.
Proof. revert i; induction l; intros [|i] H; simpl in *; try lia; auto. apply IHl; lia. Qed.
Lemma nth_error_upd_ne {A} (l : list A) i j v : i <> j -> nth_error (upd l i v) j = nth_error l j.
Proof. revert i j; induction l; intros [|i] [|j] H; simpl in *; try lia; auto. Qed.

Lemma skipn_skipn' {A} (l : list A) a b : skipn a (skipn b l) = skipn (b + a) l.
Proof. revert l; induction b; intros l; simpl; auto. destruct l; simpl; auto. now rewrite skipn_nil. Qed.

Lemma skipn_nth_error {A} (l : list A) n : nth_error l n = hd_error (skipn n l).
Proof. revert l; induction n; intros [|x l]; simpl; auto. Qed.

Lemma nth_error_skipn' {A} (l : list A) n i : nth_error (skipn n l) i = nth_error l (n + i).
Proof. revert l; induction n; intros [|x l]; simpl; auto. destruct i; auto. Qed.

Lemma firstn_app_exact {A} (a b : list A) n : n = length a -> firstn n (a ++ b) = a.
Proof. intros ->. rewrite firstn_app, firstn_all, Nat.sub_diag. simpl. apply app_nil_r. Qed.
Lemma skipn_app_exact {A} (a b : list A) n : n = length a -> skipn n (a ++ b) = b.
Proof. intros ->. rewrite skipn_app, skipn_all, Nat.sub_diag. reflexivity. Qed.

Lemma list_eqb_eq a b : list_eqb a b = true <-> a = b.
Proof.
  revert b; induction a as [|x a IH]; intros [|y b]; simpl; split; intros H; try congruence; try easy.
  - apply andb_prop in H as [H1 H2]. apply N.eqb_eq in H1. apply IH in H2. congruence.
  - injection H as -> ->. rewrite N.eqb_refl. simpl. now apply IH.
Qed.
Lemma list_eqb_refl a : list_eqb a a = true.
Proof. now apply list_eqb_eq. Qed.

(** little endian *)
Lemma le_bytes_length k n : length (le_bytes k n) = k.
Proof. revert n; induction k; simpl; auto. Qed.
Lemma le_bytes_bytes k n : bytes (le_bytes k n).
Proof.
  revert n; induction k; intros n; cbn [le_bytes]; constructor.
  - unfold is_byte. apply N.mod_lt. lia.
  - apply IHk.
Qed.
Lemma le_val_bytes k n : le_val (le_bytes k n) = (n mod 256 ^ N.of_nat k)%N.
Proof.
  revert n; induction k; intros n; cbn [le_bytes le_val].
  - change (N.of_nat 0) with 0%N. now rewrite N.pow_0_r, N.mod_1_r.
  - rewrite IHk. rewrite Nat2N.inj_succ, N.pow_succ_r'.
    rewrite N.mod_mul_r; [lia|lia|]. apply N.pow_nonzero. lia.
Qed.
Lemma le_bytes_val l : bytes l -> le_bytes (length l) (le_val l) = l.
Proof.
  induction 1 as [|b l Hb Hl IH]; cbn [length le_bytes le_val]; auto.
  unfold is_byte in Hb. f_equal.
  - rewrite (N.mul_comm 256), N.mod_add by lia. now apply N.mod_small.
  - rewrite (N.mul_comm 256), N.div_add by lia. rewrite N.div_small by lia. now rewrite N.add_0_l.
Qed.
Lemma le_val_bound l : bytes l -> (le_val l < 256 ^ N.of_nat (length l))%N.
Proof.
  induction 1 as [|b l Hb Hl IH]; cbn [length le_val].
  - now vm_compute.
  - rewrite Nat2N.inj_succ, N.pow_succ_r'. unfold is_byte in Hb. nia.
Qed.
Lemma le_bytes_inj k a b :
  (a < 256 ^ N.of_nat k)%N -> (b < 256 ^ N.of_nat k)%N -> le_bytes k a = le_bytes k b -> a = b.
Proof.
  intros Ha Hb H. apply (f_equal le_val) in H. rewrite !le_val_bytes in H.
  now rewrite !N.mod_small in H by assumption.
Qed.
Lemma bytes_app a b : bytes (a ++ b) <-> bytes a /\ bytes b.
Proof. apply Forall_app. Qed.
Lemma bytes_firstn n l : bytes l -> bytes (firstn n l).
Proof. intros H. rewrite <- (firstn_skipn n l) in H. now apply bytes_app in H. Qed.
Lemma bytes_skipn n l : bytes l -> bytes (skipn n l).
Proof. intros H. rewrite <- (firstn_skipn n l) in H. now apply bytes_app in H. Qed.
Lemma bytes_nth l i b : bytes l -> nth_error l i = Some b -> is_byte b.
Proof. intros H E. unfold bytes in H. rewrite Forall_forall in H. apply H. eapply nth_error_In; eauto. Qed.
Lemma bytes_repeat b n : is_byte b -> bytes (repeat b n).
Proof. intros H. induction n; simpl; constructor; auto. Qed.
