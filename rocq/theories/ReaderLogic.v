(** Program logic for Reader code: a parser recognises exactly a relation
    between consumed bytes and values, and panics exactly on a set of inputs. *)
From Verif Require Import Base BaseLemmas Config Encoding MsgCommon.

(** The reader with [pre] already consumed, [inp] left, at bit [j] of the first
    byte of [inp]. *)
Definition rd (pre inp : list N) (j : nat) : Reader := mkReader (pre ++ inp) (length pre) j.

Definition rspec {E A} (j : nat) (m : M Reader E A) (P : list N -> A -> Prop) (PP : list N -> Prop) : Prop :=
  forall pre inp, bytes inp -> (0 < j -> inp <> []) ->
    (forall bs rest a, inp = bs ++ rest -> P bs a -> m (rd pre inp j) = (Ok a, rd (pre ++ bs) rest 0)) /\
    (forall a r, m (rd pre inp j) = (Ok a, r) -> exists bs rest, inp = bs ++ rest /\ P bs a /\ (0 < j -> bs <> [])) /\
    ((exists p r, m (rd pre inp j) = (Panic p, r)) <-> PP inp).

Ltac rsplit := split; [|split; [|split]].
Definition never : list N -> Prop := fun _ => False.

Lemma rd_app pre bs rest j : rd (pre ++ bs) rest j = mkReader (pre ++ bs ++ rest) (length pre + length bs) j.
Proof. unfold rd. now rewrite app_length, <- app_assoc. Qed.

Lemma rspec_ext {E A} j (m m' : M Reader E A) P PP : (forall r, m r = m' r) -> rspec j m P PP -> rspec j m' P PP.
Proof.
  intros Hm H pre inp Hb Hj. destruct (H pre inp Hb Hj) as (H1 & H2 & H3). rewrite <- !Hm.
  repeat split; auto; apply H3.
Qed.

Lemma rspec_weaken {E A} j (m : M Reader E A) (P P' : list N -> A -> Prop) (PP PP' : list N -> Prop) :
  rspec j m P PP ->
  (forall bs a, bytes bs -> (P bs a <-> P' bs a)) ->
  (forall inp, bytes inp -> (PP inp <-> PP' inp)) -> rspec j m P' PP'.
Proof.
  intros H HP HPP pre inp Hb Hj. destruct (H pre inp Hb Hj) as (H1 & H2 & H3).
  repeat split.
  - intros bs rest a -> Ha. apply bytes_app in Hb as [Hb1 Hb2]. apply H1; auto. now apply HP.
  - intros a r Hr. destruct (H2 a r Hr) as (bs & rest & -> & Ha & Hne). exists bs, rest. split; [auto|]. split; auto.
    apply HP; auto. now apply bytes_app in Hb.
  - intros Hp. apply HPP; auto. now apply H3.
  - intros Hp. apply H3. now apply HPP.
Qed.

Lemma rspec_ret {E A} (a : A) : @rspec E A 0 (ret a) (fun bs x => bs = [] /\ x = a) never.
Proof.
  intros pre inp Hb _. unfold ret, never. repeat split.
  - intros bs rest x -> [-> ->]. simpl. now rewrite app_nil_r.
  - intros x r [= <- <-]. exists [], inp. repeat split; auto; lia.
  - intros (p & r & [=]).
  - tauto.
Qed.
Lemma rspec_err {E A} j (e : E) : @rspec E A j (err e) (fun _ _ => False) never.
Proof.
  intros pre inp Hb _. unfold err, never. repeat split; try tauto.
  - intros x r [=].
  - intros (p & r & [=]).
Qed.
Lemma rspec_pnc {E A} j p : @rspec E A j (pnc p) (fun _ _ => False) (fun _ => True).
Proof.
  intros pre inp Hb _. unfold pnc. repeat split; try tauto.
  - intros x r [=].
  - eauto.
Qed.
Lemma rspec_map_err {E F A} j (f : E -> F) (m : M Reader E A) P PP :
  rspec j m P PP -> rspec j (map_err f m) P PP.
Proof.
  intros H pre inp Hb Hj. destruct (H pre inp Hb Hj) as (H1 & H2 & H3). unfold map_err. repeat split.
  - intros bs rest a E1 Ha. now rewrite (H1 bs rest a).
  - intros a r. destruct (m (rd pre inp j)) as [[x|e|p] s]; intros [=]; subst. eauto.
  - intros (p & r & Hr). apply H3. destruct (m (rd pre inp j)) as [[x|e|q] s]; try discriminate.
    injection Hr as -> ->. eauto.
  - intros Hp. apply H3 in Hp as (p & r & ->). eauto.
Qed.

Lemma rspec_bind {E A B} j (m : M Reader E A) (k : A -> M Reader E B) P PP Q QQ :
  rspec j m P PP -> (forall a bs, bytes bs -> P bs a -> rspec 0 (k a) (Q a) (QQ a)) ->
  rspec j (bind m k)
        (fun bs b => exists b1 b2 a, bs = b1 ++ b2 /\ P b1 a /\ Q a b2 b)
        (fun inp => PP inp \/ exists b1 rest a, inp = b1 ++ rest /\ P b1 a /\ QQ a rest).
Proof.
  intros Hm Hk pre inp Hb Hj. destruct (Hm pre inp Hb Hj) as (H1 & H2 & H3). unfold bind. repeat split.
  - intros bs rest b E1 (b1 & b2 & a & -> & Ha & Hq).
    subst inp. rewrite (H1 b1 (b2 ++ rest) a) by (auto; now rewrite app_assoc).
    apply bytes_app in Hb as [Hb1 Hb3]. apply bytes_app in Hb1 as [Hb1 Hb2].
    destruct (Hk a b1 Hb1 Ha (pre ++ b1) (b2 ++ rest)) as (K1 & _ & _); [now apply bytes_app|lia|].
    rewrite (K1 b2 rest b eq_refl Hq). now rewrite <- app_assoc.
  - intros b r Hr. destruct (m (rd pre inp j)) as [[x|e|p] s]; try discriminate.
    destruct (H2 x s eq_refl) as (b1 & rest1 & E1 & Hx & Hn1).
    pose proof (H1 b1 rest1 x E1 Hx) as E2; injection E2 as ->; subst inp.
    apply bytes_app in Hb as [Hb1 Hb2].
    destruct (Hk x b1 Hb1 Hx (pre ++ b1) rest1 Hb2) as (_ & K2 & _); [lia|].
    destruct (K2 b r Hr) as (b2 & rest & -> & Hq & _). exists (b1 ++ b2), rest.
    rewrite <- app_assoc. split; [auto|]. split; [exists b1, b2, x; auto|].
    intros Hj'. specialize (Hn1 Hj'). destruct b1; [congruence|discriminate].
  - intros (p & r & Hr). destruct (m (rd pre inp j)) as [[x|e|q] s]; try discriminate.
    + right. destruct (H2 x s eq_refl) as (b1 & rest1 & E1 & Hx & Hn1).
      pose proof (H1 b1 rest1 x E1 Hx) as E2; injection E2 as ->; subst inp.
      apply bytes_app in Hb as [Hb1 Hb2].
      destruct (Hk x b1 Hb1 Hx (pre ++ b1) rest1 Hb2) as (_ & _ & K3); [lia|].
      exists b1, rest1, x. repeat split; auto. apply K3. eauto.
    + left. apply H3. eauto.
  - intros [Hp | (b1 & rest & a & E1 & Ha & Hq)].
    + apply H3 in Hp as (p & r & ->). eauto.
    + subst inp. rewrite (H1 b1 rest a eq_refl Ha).
      apply bytes_app in Hb as [Hb1 Hb2].
      destruct (Hk a b1 Hb1 Ha (pre ++ b1) rest Hb2) as (_ & _ & K3); [lia|]. now apply K3.
Qed.

(** The common case: neither half panics. *)
Lemma rspec_bind' {E A B} j (m : M Reader E A) (k : A -> M Reader E B) P Q :
  rspec j m P never -> (forall a bs, bytes bs -> P bs a -> rspec 0 (k a) (Q a) never) ->
  rspec j (bind m k) (fun bs b => exists b1 b2 a, bs = b1 ++ b2 /\ P b1 a /\ Q a b2 b) never.
Proof.
  intros H1 H2. eapply rspec_weaken; [exact (rspec_bind j m k P never Q (fun _ => never) H1 H2)|reflexivity|].
  unfold never. firstorder.
Qed.

(** A pure step in front of [k], at any bit position. *)
Lemma rspec_lift_bind {E A B} j (r : res E A) (k : A -> M Reader E B) Q QQ :
  (forall a, r = Ok a -> rspec j (k a) (Q a) (QQ a)) ->
  rspec j (bind (lift r) k) (fun bs b => exists a, r = Ok a /\ Q a bs b)
        (fun inp => (exists p, r = Panic p) \/ exists a, r = Ok a /\ QQ a inp).
Proof.
  intros H. destruct r as [a|e|p].
  - eapply rspec_ext with (m := k a); [reflexivity|].
    eapply rspec_weaken; [apply H; reflexivity| |].
    + intros bs b _. split; [eauto|]. intros (x & [= <-] & Hx). auto.
    + intros inp _. split; [eauto|]. intros [(p & [=])|(x & [= <-] & Hx)]. auto.
  - eapply rspec_ext with (m := err e); [reflexivity|].
    eapply rspec_weaken; [apply rspec_err| |].
    + intros bs b _. split; [tauto|]. intros (x & [=] & _).
    + unfold never. intros inp _. split; [tauto|]. intros [(p & [=])|(x & [=] & _)].
  - eapply rspec_ext with (m := pnc p); [reflexivity|].
    eapply rspec_weaken; [apply rspec_pnc| |].
    + intros bs b _. split; [tauto|]. intros (x & [=] & _).
    + intros inp _. split; eauto.
Qed.
Lemma rspec_opt_bind {E A B} j (e : E) (o : option A) (k : A -> M Reader E B) Q :
  (forall a, o = Some a -> rspec j (k a) (Q a) never) ->
  rspec j (bind (lift (of_option e o)) k) (fun bs b => exists a, o = Some a /\ Q a bs b) never.
Proof.
  intros H. destruct o as [a|].
  - eapply rspec_ext with (m := k a); [reflexivity|].
    eapply rspec_weaken; [apply H; reflexivity| |reflexivity].
    intros bs b _. split; [eauto|]. intros (x & [= <-] & Hx). auto.
  - eapply rspec_ext with (m := err e); [reflexivity|].
    eapply rspec_weaken; [apply rspec_err| |reflexivity].
    intros bs b _. split; [tauto|]. intros (x & [=] & _).
Qed.

Lemma rspec_if_err {E A} j (c : bool) (e : E) (m : M Reader E A) Q QQ :
  (c = false -> rspec j m Q QQ) ->
  rspec j (if c then err e else m) (fun bs a => c = false /\ Q bs a) (fun inp => c = false /\ QQ inp).
Proof.
  intros H. destruct c.
  - eapply rspec_weaken; [apply rspec_err| |]; unfold never; intuition congruence.
  - eapply rspec_weaken; [apply H; auto| |]; intuition.
Qed.
Lemma rspec_if_err' {E A} j (c : bool) (e : E) (m : M Reader E A) Q :
  (c = false -> rspec j m Q never) ->
  rspec j (if c then err e else m) (fun bs a => c = false /\ Q bs a) never.
Proof.
  intros H. eapply rspec_weaken; [apply rspec_if_err; exact H|reflexivity|]. unfold never; tauto.
Qed.

Lemma nth_error_mid {A} (p : list A) x l : nth_error (p ++ x :: l) (length p) = Some x.
Proof. rewrite nth_error_app2 by lia. now rewrite Nat.sub_diag. Qed.

Section Prims.
Context {cfg : Config}.

Lemma rspec_get_byte : rspec 0 get_byte (fun bs b => bs = [b]) never.
Proof.
  intros pre inp Hb _. unfold get_byte, r_is_aligned, r_is_empty, r_index, rd, never. simpl.
  destruct inp as [|x inp].
  - rewrite app_nil_r, Nat.eqb_refl. repeat split.
    + intros bs rest a E1 ->. discriminate.
    + intros a r [=].
    + intros (p & r & [=]).
    + tauto.
  - rewrite app_length. simpl length.
    destruct (Nat.eqb_spec (length pre + S (length inp)) (length pre)); [lia|].
    rewrite nth_error_mid. repeat split.
    + intros bs rest a E1 ->. injection E1 as -> ->. unfold r_adv; simpl.
      rewrite app_length, <- app_assoc. reflexivity.
    + intros a r [= -> <-]. exists [a], inp. repeat split; auto; lia.
    + intros (p & r & [=]).
    + tauto.
Qed.

Lemma rspec_repeat {E} (m : M Reader E unit) (P : list N -> Prop) n :
  rspec 0 m (fun bs _ => P bs) never ->
  rspec 0 (repeatM n m) (fun bs _ => exists l, length l = n /\ Forall P l /\ bs = concat l) never.
Proof.
  intros H. induction n as [|n IH]; simpl.
  - eapply rspec_weaken; [apply rspec_ret| |reflexivity].
    intros bs [] _. split.
    + intros [-> _]. exists []. auto.
    + intros (l & Hl & _ & ->). destruct l; [auto|discriminate].
  - eapply rspec_weaken; [apply rspec_bind'; [apply H|intros; apply IH]| |reflexivity].
    intros bs [] _. cbv beta. split.
    + intros (b1 & b2 & _ & -> & H1 & l & Hl & HF & ->). exists (b1 :: l). simpl. auto.
    + intros (l & Hl & HF & ->). destruct l as [|b1 l]; [discriminate|]. inversion HF; subst.
      exists b1, (concat l), tt. repeat split; auto. exists l; auto.
Qed.

Lemma concat_singletons (l : list (list N)) (f : N -> Prop) :
  Forall (fun bs => exists b, bs = [b] /\ f b) l -> length (concat l) = length l /\ Forall f (concat l).
Proof.
  induction 1 as [|x l (b & -> & Hb) _ [IH1 IH2]]; simpl; auto.
Qed.

Lemma rspec_skip_reserved n : rspec 0 (skip_reserved n) (fun bs _ => bs = repeat 0%N n) never.
Proof.
  eapply rspec_weaken; [apply (rspec_repeat _ (fun bs => bs = [0%N]))| |reflexivity].
  - eapply rspec_weaken; [apply rspec_bind'; [apply rspec_get_byte|
      intros; apply rspec_if_err'; intros; apply rspec_ret]| |reflexivity].
    intros bs [] _; cbv beta. split.
    + intros (b1 & b2 & a & -> & -> & Hz & -> & _). apply negb_false_iff, N.eqb_eq in Hz. subst. reflexivity.
    + intros ->. exists [0%N], [], 0%N. auto.
  - intros bs [] _; cbv beta. split.
    + intros (l & <- & HF & ->). induction HF as [|x l -> _ IH]; simpl; congruence.
    + intros ->. exists (repeat [0%N] n). rewrite repeat_length. repeat split.
      * apply Forall_forall. intros x Hx. now apply repeat_spec in Hx.
      * induction n; simpl; congruence.
Qed.
Lemma rspec_skip_ignored n : rspec 0 (skip_ignored n) (fun bs _ => length bs = n) never.
Proof.
  eapply rspec_weaken; [apply (rspec_repeat _ (fun bs => exists b, bs = [b] /\ True))| |reflexivity].
  - eapply rspec_weaken; [apply rspec_bind'; [apply rspec_get_byte| intros; apply rspec_ret]| |reflexivity].
    intros bs [] _; cbv beta. split.
    + intros (b1 & b2 & a & -> & -> & -> & _). exists a; auto.
    + intros (b & -> & _). exists [b], [], b. auto.
  - intros bs [] _; cbv beta. split.
    + intros (l & <- & HF & ->). now apply concat_singletons in HF.
    + intros <-. exists (map (fun b => [b]) bs). rewrite map_length. repeat split.
      * apply Forall_forall. intros x Hx. apply in_map_iff in Hx as (b & <- & _). eauto.
      * induction bs; simpl; congruence.
Qed.

Lemma slice_mid (pre bs rest : list N) n : n = length bs ->
  slice (pre ++ bs ++ rest) (length pre) (length pre + n) = bs.
Proof.
  intros ->. unfold slice. rewrite skipn_app_exact by reflexivity.
  replace (length pre + length bs - length pre) with (length bs) by lia.
  now rewrite firstn_app_exact.
Qed.

Lemma take_bytes (inp : list N) n : n <= length inp -> exists bs rest, inp = bs ++ rest /\ length bs = n.
Proof.
  intros H. exists (firstn n inp), (skipn n inp). rewrite firstn_skipn, firstn_length. split; auto. lia.
Qed.

Lemma rspec_get_slice size dest :
  rspec 0 (get_slice size dest) (fun bs a => bs = a /\ length a = size /\ size <= dest)
        (fun inp => dest < size <= length inp).
Proof.
  intros pre inp Hb _. unfold get_slice, r_is_aligned, r_remaining, r_slice, r_adv. change (r_bit (rd pre inp 0) =? 0) with true. cbn [negb].
  change (r_buf (rd pre inp 0)) with (pre ++ inp). change (r_byte (rd pre inp 0)) with (length pre).
  change (r_bit (rd pre inp 0)) with 0.
  rewrite app_length. replace (length pre + length inp - length pre) with (length inp) by lia.
  destruct (Nat.ltb_spec (length inp) size).
  - rsplit.
    + intros bs rest a -> (<- & <- & Hd). rewrite app_length in *. lia.
    + intros a r [=].
    + intros (p & r & [=]).
    + lia.
  - destruct (take_bytes inp size) as (bs & rest & -> & Hl); [lia|].
    rewrite app_length in *.
    destruct (Nat.ltb_spec dest size).
    + rsplit.
      * intros bs' rest' a E1 (-> & E2 & E3). lia.
      * intros a r [=].
      * lia.
      * intros _. eexists _, _. reflexivity.
    + destruct (Nat.leb_spec (length pre + size) (length pre + (length bs + length rest))); [|lia].
      rewrite slice_mid by auto. rsplit.
      * intros bs' rest' a E1 (-> & E2 & E3).
        assert (a = bs /\ rest' = rest) as [-> ->].
        { split.
          - apply (f_equal (firstn size)) in E1. now rewrite !firstn_app_exact in E1 by auto.
          - apply (f_equal (skipn size)) in E1. now rewrite !skipn_app_exact in E1 by auto. }
        rewrite rd_app, E2. reflexivity.
      * intros a r [= <- <-]. exists bs, rest. repeat split; auto; lia.
      * intros (p & r & [=]).
      * lia.
Qed.
Lemma rspec_get_slice' size dest : size <= dest ->
  rspec 0 (get_slice size dest) (fun bs a => bs = a /\ length a = size) never.
Proof.
  intros H. eapply rspec_weaken; [apply rspec_get_slice| |].
  - intuition.
  - unfold never; intros; lia.
Qed.

Lemma get_int_spec n (m : M Reader ReadError N) :
  (forall r, m r = if negb (r_is_aligned r) then (Err Unaligned, r)
                   else if r_remaining r <? n then (Err BufferEmpty, r)
                   else match r_slice r (r_byte r) n with
                        | Ok bs => (Ok (le_val bs), r_adv r n)
                        | Err e => (Err e, r) | Panic p => (Panic p, r) end) ->
  rspec 0 m (fun bs v => bs = le_bytes n v /\ (v < 256 ^ N.of_nat n)%N) never.
Proof.
  intros Hm pre inp Hb _. rewrite !Hm. unfold r_is_aligned, r_remaining, r_slice, r_adv.
  change (r_bit (rd pre inp 0) =? 0) with true. cbn [negb].
  change (r_buf (rd pre inp 0)) with (pre ++ inp). change (r_byte (rd pre inp 0)) with (length pre).
  change (r_bit (rd pre inp 0)) with 0.
  rewrite app_length. replace (length pre + length inp - length pre) with (length inp) by lia.
  unfold never. destruct (Nat.ltb_spec (length inp) n).
  - repeat split.
    + intros bs rest a -> (E1 & E2). rewrite app_length, E1, le_bytes_length in *. lia.
    + intros a r [=].
    + intros (p & r & [=]).
    + tauto.
  - destruct (take_bytes inp n) as (bs & rest & -> & Hl); [lia|].
    apply bytes_app in Hb as [Hb1 Hb2]. rewrite app_length in *.
    destruct (Nat.leb_spec (length pre + n) (length pre + (length bs + length rest))); [|lia].
    rewrite slice_mid by auto. repeat split.
    + intros bs' rest' a E1 (E2 & E3).
      assert (bs' = bs /\ rest' = rest) as [-> ->].
      { assert (length bs' = n) by now rewrite E2, le_bytes_length. split.
        - apply (f_equal (firstn n)) in E1. now rewrite !firstn_app_exact in E1 by auto.
        - apply (f_equal (skipn n)) in E1. now rewrite !skipn_app_exact in E1 by auto. }
      rewrite rd_app. rewrite E2 at 1. rewrite le_val_bytes, N.mod_small by auto. now rewrite Hl.
    + intros a r [= <- <-]. exists bs, rest. split; auto. rewrite <- Hl. split; [split|].
      * now rewrite le_bytes_val.
      * now apply le_val_bound.
      * lia.
    + intros (p & r & [=]).
    + tauto.
Qed.
Lemma rspec_get_u16 : rspec 0 get_u16 (fun bs v => bs = le_bytes 2 v /\ (v < 65536)%N) never.
Proof. apply get_int_spec. reflexivity. Qed.
Lemma rspec_get_u32 : rspec 0 get_u32 (fun bs v => bs = le_bytes 4 v /\ (v < 4294967296)%N) never.
Proof. apply get_int_spec. reflexivity. Qed.

Lemma lor_shift_add a b k : (a < 2 ^ k)%N -> N.lor a (N.shiftl b k) = (a + 2 ^ k * b)%N.
Proof.
  intros H. rewrite N.shiftl_mul_pow2, (N.mul_comm b).
  symmetry. rewrite N.add_nocarry_lxor.
  - apply N.bits_inj. intros i. rewrite N.lxor_spec, N.lor_spec.
    destruct (N.lt_ge_cases i k) as [L|L].
    + rewrite (N.mul_comm (2^k)), N.mul_pow2_bits_low by auto. now destruct (N.testbit a i).
    + assert (N.testbit a i = false) as ->; [|now destruct (N.testbit _ i)].
      destruct (N.eq_dec a 0) as [->|]; [apply N.bits_0|].
      apply N.bits_above_log2. apply N.log2_lt_pow2; [lia|].
      eapply N.lt_le_trans; [exact H|]. apply N.pow_le_mono_r; lia.
  - apply N.bits_inj. intros i. rewrite N.land_spec, N.bits_0.
    destruct (N.lt_ge_cases i k) as [L|L].
    + rewrite (N.mul_comm (2^k)), N.mul_pow2_bits_low by auto. now destruct (N.testbit a i).
    + assert (N.testbit a i = false) as ->; [|reflexivity].
      destruct (N.eq_dec a 0) as [->|]; [apply N.bits_0|].
      apply N.bits_above_log2. apply N.log2_lt_pow2; [lia|].
      eapply N.lt_le_trans; [exact H|]. apply N.pow_le_mono_r; lia.
Qed.

Lemma u24_val b0 b1 b2 : is_byte b0 -> is_byte b1 -> is_byte b2 ->
  N.lor (N.lor b0 (N.shiftl b1 8)) (N.shiftl b2 16) = le_val [b0; b1; b2].
Proof.
  unfold is_byte. intros H0 H1 H2.
  rewrite (lor_shift_add b0 b1 8) by exact H0.
  rewrite lor_shift_add.
  - change (2 ^ 8)%N with 256%N. change (2 ^ 16)%N with 65536%N. cbn [le_val]. lia.
  - change (2 ^ 8)%N with 256%N. change (2 ^ 16)%N with 65536%N. lia.
Qed.

Lemma rspec_get_u24 : rspec 0 get_u24 (fun bs v => bs = le_bytes 3 v /\ (v < 16777216)%N) never.
Proof.
  intros pre inp Hb Hj. unfold get_u24. change (negb (r_is_aligned (rd pre inp 0))) with false.
  cbv iota. revert pre inp Hb Hj.
  match goal with |- forall pre inp, _ -> _ -> (forall bs rest a, _ -> _ -> ?m _ = _) /\ _ =>
    change (rspec 0 m (fun bs v => bs = le_bytes 3 v /\ (v < 16777216)%N) never) end.
  eapply rspec_weaken; [apply rspec_bind'; [apply rspec_get_byte|intros; apply rspec_bind';
    [apply rspec_get_byte|intros; apply rspec_bind'; [apply rspec_get_byte|intros; apply rspec_ret]]]| |reflexivity].
  intros bs v Hbs; cbv beta. split.
  - intros (? & ? & b0 & -> & -> & ? & ? & b1 & -> & -> & ? & ? & b2 & -> & -> & -> & ->).
    simpl app in *. inversion Hbs as [|? ? H0 Hbs1]; subst. inversion Hbs1 as [|? ? H1 Hbs2]; subst.
    inversion Hbs2 as [|? ? H2 _]; subst. rewrite u24_val by auto.
    split; [symmetry; exact (le_bytes_val [b0; b1; b2] Hbs)|exact (le_val_bound [b0; b1; b2] Hbs)].
  - intros [E1 E2]. subst bs. cbn [le_bytes] in *. set (b0 := (v mod 256)%N) in *.
    set (b1 := ((v / 256) mod 256)%N) in *. set (b2 := ((v / 256 / 256) mod 256)%N) in *.
    exists [b0], [b1; b2], b0. repeat split. exists [b1], [b2], b1. repeat split.
    exists [b2], [], b2. repeat split.
    inversion Hbs as [|? ? H0 Hbs1]; subst. inversion Hbs1 as [|? ? H1 Hbs2]; subst.
    inversion Hbs2 as [|? ? H2 _]; subst. rewrite u24_val by auto.
    change [b0; b1; b2] with (le_bytes 3 v). rewrite le_val_bytes. symmetry. now apply N.mod_small.
Qed.
End Prims.
