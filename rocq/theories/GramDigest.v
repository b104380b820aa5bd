(** Writers and parsers of GET_DIGESTS and DIGESTS. *)
From Verif Require Import Base BaseLemmas Config Encoding MsgCommon MsgDigest
     WriterLogic ReaderLogic ReaderBits ReaderLoops SpecWire GramBasic.

(** The slots set in a mask, in order. *)
Definition mask_slots (ns : nat) (bits : N) : list nat := filter (slot_in_mask bits) (seq 0 ns).

Fixpoint nlist_eqb (a b : list nat) : bool :=
  match a, b with [], [] => true | x :: a', y :: b' => (x =? y) && nlist_eqb a' b' | _, _ => false end.
Lemma nlist_eqb_eq a b : nlist_eqb a b = true -> a = b.
Proof.
  revert b; induction a; destruct b; simpl; try discriminate; auto.
  rewrite andb_true_iff. intros [H1 H2]. apply Nat.eqb_eq in H1. subst. f_equal. auto.
Qed.
Definition mask_step_check (ns : nat) (bits : N) : bool :=
  match mask_slots ns bits with
  | [] => ns <=? trailing_zeros 8 bits
  | k :: ks => (trailing_zeros 8 bits =? k) && (k <? ns) && (k <? 8)
               && (N.lxor bits (N.shiftl 1 (N.of_nat k) mod 256) <? 256)%N
               && nlist_eqb (mask_slots ns (N.lxor bits (N.shiftl 1 (N.of_nat k) mod 256))) ks
  end.
Lemma mask_step_all :
  forallb (fun ns => forallb (fun b => mask_step_check ns (N.of_nat b)) (seq 0 256)) (seq 0 9) = true.
Proof. vm_compute. reflexivity. Qed.
Lemma mask_step ns bits : ns <= 8 -> (bits < 256)%N -> mask_step_check ns bits = true.
Proof.
  intros H1 H2. pose proof mask_step_all as A. rewrite forallb_forall in A.
  specialize (A ns ltac:(apply in_seq; lia)). rewrite forallb_forall in A.
  specialize (A (N.to_nat bits) ltac:(apply in_seq; lia)). now rewrite N2Nat.id in A.
Qed.

Section Gram.
Context {cfg : Config}.

Lemma mask_slots_lt ns bits k : In k (mask_slots ns bits) -> k < ns.
Proof. unfold mask_slots. rewrite filter_In, in_seq. lia. Qed.
Lemma mask_slots_in ns bits k : In k (mask_slots ns bits) <-> k < ns /\ slot_in_mask bits k = true.
Proof. unfold mask_slots. rewrite filter_In, in_seq. intuition lia. Qed.
Lemma mask_slots_nodup ns bits : NoDup (mask_slots ns bits).
Proof. apply NoDup_filter, seq_NoDup. Qed.
Lemma mask_slots_length ns bits : length (mask_slots ns bits) <= ns.
Proof.
  unfold mask_slots. rewrite <- (seq_length ns 0) at 2.
  generalize (seq 0 ns). induction l; simpl; [lia|]. destruct (slot_in_mask bits a); simpl; lia.
Qed.

(** ** GET_DIGESTS *)
Lemma emits_get_digests o : emits o get_digests_write_body BufferFull (zeros 2) (o + 2).
Proof. apply emits_put_reserved. Qed.
Lemma rspec_get_digests : rspec 0 get_digests_parse (fun bs _ => bs = zeros 2) never.
Proof. exact rspec_get_version. Qed.

(** ** DIGESTS *)
Fixpoint assign (ks : list nat) (xs : list (list N)) (ds : list (option (list N))) :=
  match ks, xs with
  | k :: ks', x :: xs' => assign ks' xs' (upd ds k (Some x))
  | _, _ => ds
  end.

Hypothesis NS8 : NUM_SLOTS <= 8.

Lemma rspec_digests_loop size fuel : forall bits ds, (bits < 256)%N -> length ds = NUM_SLOTS ->
  length (mask_slots NUM_SLOTS bits) <= fuel ->
  rspec 0 (read_digests_loop fuel size bits ds)
    (fun bs l => exists xs, length xs = length (mask_slots NUM_SLOTS bits) /\
       Forall (fun x => length x = size) xs /\ bs = concat xs /\ l = assign (mask_slots NUM_SLOTS bits) xs ds) never.
Proof.
  induction fuel as [|fuel IH]; intros bits ds Hbits Hds Hf;
    pose proof (mask_step NUM_SLOTS bits NS8 Hbits) as St; unfold mask_step_check in St;
    cbn [read_digests_loop].
  - destruct (mask_slots NUM_SLOTS bits); [|simpl in Hf; lia].
    apply Nat.leb_le in St. destruct (Nat.ltb_spec (trailing_zeros 8 bits) NUM_SLOTS); [lia|].
    eapply rspec_weaken; [apply rspec_ret| |reflexivity]. intros bs l _. split.
    + intros [-> ->]. exists []. auto.
    + intros (xs & Hl & _ & -> & ->). destruct xs; [auto|discriminate].
  - destruct (mask_slots NUM_SLOTS bits) as [|k ks] eqn:Ek.
    + apply Nat.leb_le in St. destruct (Nat.ltb_spec (trailing_zeros 8 bits) NUM_SLOTS); [lia|].
      eapply rspec_weaken; [apply rspec_ret| |reflexivity]. intros bs l _. split.
      * intros [-> ->]. exists []. auto.
      * intros (xs & Hl & _ & -> & ->). destruct xs; [auto|discriminate].
    + rewrite !andb_true_iff in St. destruct St as ((((S1 & S2) & S3) & S4) & S5).
      apply Nat.eqb_eq in S1. apply Nat.ltb_lt in S2, S3. apply N.ltb_lt in S4. apply nlist_eqb_eq in S5.
      rewrite S1. destruct (Nat.ltb_spec k NUM_SLOTS); [|lia].
      unfold xor_bit, shl8, shamt8. destruct (Nat.ltb_spec k 8); [|lia]. cbn [rmap].
      eapply rspec_weaken; [eapply rspec_bind'; [apply rspec_get_slice'; lia|]| |reflexivity].
      * intros d b0 _ _. destruct (Nat.ltb_spec k (length ds)); [|lia].
        eapply rspec_ext with (m := read_digests_loop fuel size
               (N.lxor bits (N.shiftl 1 (N.of_nat k) mod 256)) (upd ds k (Some d))).
        { intros r. reflexivity. }
        apply IH; [auto|now rewrite upd_length|]. rewrite S5. simpl in Hf. lia.
      * cbv beta. intros bs l _. rewrite S5. split.
        -- intros (b1 & b2 & a & -> & (-> & Hl) & xs & Hx & HF & -> & ->).
           exists (a :: xs). simpl. repeat split; auto.
        -- intros (xs & Hl & HF & -> & ->). destruct xs as [|x xs]; [discriminate|].
           inversion HF; subst. exists x, (concat xs), x. simpl in *.
           repeat split; auto. exists xs. repeat split; auto.
Qed.

Lemma assign_length ks : forall xs ds, length (assign ks xs ds) = length ds.
Proof. induction ks; destruct xs; simpl; intros; auto. now rewrite IHks, upd_length. Qed.
Lemma assign_notin ks : forall xs ds k, ~ In k ks -> nth_error (assign ks xs ds) k = nth_error ds k.
Proof.
  induction ks as [|a ks IH]; destruct xs; simpl; intros ds k H; auto.
  rewrite IH by tauto. apply nth_error_upd_ne. tauto.
Qed.
Lemma assign_nth ks : forall xs ds j k x, NoDup ks -> Forall (fun k => k < length ds) ks ->
  nth_error ks j = Some k -> nth_error xs j = Some x -> nth_error (assign ks xs ds) k = Some (Some x).
Proof.
  induction ks as [|a ks IH]; intros xs ds j k x Hn HF Hk Hx; [destruct j; discriminate|].
  inversion Hn; subst. inversion HF; subst. destruct xs as [|y xs]; [destruct j; discriminate|].
  destruct j; simpl in *.
  - injection Hk as ->. injection Hx as ->. rewrite assign_notin by auto. now apply nth_error_upd_eq.
  - eapply IH; eauto. now rewrite upd_length.
Qed.

Lemma rspec_digests size :
  rspec 0 (digests_parse size)
    (fun bs m => digests_ok NUM_SLOTS size m /\ bs = digests_layout NUM_SLOTS (d_slot_mask m) (slot_digest m)) never.
Proof.
  unfold digests_parse. eapply rspec_weaken; [rgo; eapply rspec_digests_loop | | reflexivity].
  - cbv beta in *. subst. match goal with H : bytes [_] |- _ => inversion H; subst; auto end.
  - apply repeat_length.
  - match goal with |- context [mask_slots ?n ?x] => pose proof (mask_slots_length n x) end. lia.
  - cbv beta. intros bs m Hb. split.
    + intros (? & ? & [] & -> & -> & ? & ? & mask & -> & -> & ? & ? & l & -> & (xs & Hl & HF & -> & ->) & -> & ->).
      rewrite app_nil_r.
      set (ks := mask_slots NUM_SLOTS mask) in *.
      assert (KL : Forall (fun k => k < length (@repeat (option (list N)) None NUM_SLOTS)) ks).
      { apply Forall_forall. intros k Hk. rewrite repeat_length. now apply mask_slots_lt in Hk. }
      pose proof (mask_slots_nodup NUM_SLOTS mask) as ND. fold ks in ND.
      assert (G : forall j k x, nth_error ks j = Some k -> nth_error xs j = Some x ->
                  nth_error (assign ks xs (repeat None NUM_SLOTS)) k = Some (Some x)).
      { intros. eapply assign_nth; eauto. }
      split.
      * unfold digests_ok. cbn [d_digests d_slot_mask]. rewrite assign_length, repeat_length. split; auto.
        intros i Hi. split; intros Hs.
        -- assert (Hin : In i ks) by (apply mask_slots_in; auto).
           apply In_nth_error in Hin as [j Hj].
           destruct (nth_error xs j) as [x|] eqn:Ex.
           ++ exists x. split; [eapply G; eauto|]. rewrite Forall_forall in HF. apply HF.
              eapply nth_error_In; eauto.
           ++ apply nth_error_None in Ex. assert (nth_error ks j <> None) by congruence.
              apply nth_error_Some in H. lia.
        -- rewrite assign_notin; [now apply nth_error_repeat|].
           intros Hin. apply mask_slots_in in Hin. destruct Hin. congruence.
      * unfold digests_layout, slot_digest. cbn [d_slot_mask d_digests]. do 3 f_equal.
        fold (mask_slots NUM_SLOTS mask). fold ks.
        clear - Hl G. apply nth_ext with (d := []) (d' := []).
        { now rewrite map_length. }
        intros j Hj. pose proof (map_nth (fun i : nat =>
          match nth_error (assign ks xs (repeat None NUM_SLOTS)) i with Some (Some d) => d | _ => [] end) ks 0 j) as Mn.
        rewrite nth_indep with (d' := match nth_error (assign ks xs (repeat None NUM_SLOTS)) 0 with Some (Some d) => d | _ => [] end)
          (l := map _ ks) by (rewrite map_length; lia).
        rewrite Mn. rewrite (G j _ (nth j xs [])); auto.
        -- apply nth_error_nth'. lia.
        -- now apply nth_error_nth'.
    + destruct m as [mask l]. intros ((Hlen & Hd) & ->). cbn [d_slot_mask d_digests] in *.
      unfold digests_layout. gnil. eexists _, _, tt. split; [reflexivity|]. split; [reflexivity|].
      eexists _, _, mask. split; [reflexivity|]. split; [reflexivity|].
      eexists _, [], l. split; [reflexivity|]. split; [|auto].
      set (ks := mask_slots NUM_SLOTS mask).
      exists (map (slot_digest (mkDigests mask l)) ks).
      fold (mask_slots NUM_SLOTS mask). fold ks.
      assert (KD : forall k, In k ks -> exists d, nth_error l k = Some (Some d) /\ length d = size).
      { intros k Hk. apply mask_slots_in in Hk as [Hk1 Hk2]. now apply (Hd k Hk1). }
      repeat split.
      * apply map_length.
      * apply Forall_forall. intros x Hx. apply in_map_iff in Hx as (k & <- & Hk).
        destruct (KD k Hk) as (d & Hd1 & Hd2). unfold slot_digest; cbn [d_digests]. now rewrite Hd1.
      * assert (KL : Forall (fun k => k < length (@repeat (option (list N)) None NUM_SLOTS)) ks).
        { apply Forall_forall. intros k Hk. rewrite repeat_length. now apply mask_slots_lt in Hk. }
        pose proof (mask_slots_nodup NUM_SLOTS mask) as ND. fold ks in ND.
        apply nth_ext with (d := None) (d' := None).
        { now rewrite assign_length, repeat_length. }
        intros i Hi. rewrite Hlen in Hi.
        assert (nth_error l i = nth_error (assign ks (map (slot_digest (mkDigests mask l)) ks) (repeat None NUM_SLOTS)) i) as En.
        { destruct (slot_in_mask mask i) eqn:Hs.
          - assert (Hin : In i ks) by (apply mask_slots_in; auto).
            destruct (KD i Hin) as (d & Hd1 & Hd2). rewrite Hd1. symmetry.
            apply In_nth_error in Hin as [j Hj]. eapply assign_nth; eauto.
            rewrite nth_error_map, Hj. simpl. unfold slot_digest; cbn [d_digests]. now rewrite Hd1.
          - rewrite assign_notin; [|intros Hin; apply mask_slots_in in Hin; destruct Hin; congruence].
            rewrite nth_error_repeat by auto. now apply (Hd i Hi). }
        rewrite (nth_error_nth' l None) in En by lia.
        rewrite (nth_error_nth' (assign _ _ _) None) in En by (rewrite assign_length, repeat_length; lia). congruence.
Qed.

Lemma emits_digests_loop ds fuel : forall bits o, (bits < 256)%N ->
  length (mask_slots NUM_SLOTS bits) <= fuel ->
  (forall i, In i (mask_slots NUM_SLOTS bits) -> exists d, nth_error ds i = Some (Some d)) ->
  let bs := concat (map (fun i => match nth_error ds i with Some (Some d) => d | _ => [] end) (mask_slots NUM_SLOTS bits)) in
  emits o (write_digests_loop fuel bits ds o) BufferFull bs (o + length bs).
Proof.
  induction fuel as [|fuel IH]; intros bits o Hbits Hf Hd;
    pose proof (mask_step NUM_SLOTS bits NS8 Hbits) as St; unfold mask_step_check in St;
    cbn [write_digests_loop].
  - destruct (mask_slots NUM_SLOTS bits); [|simpl in Hf; lia].
    apply Nat.leb_le in St. destruct (Nat.ltb_spec (trailing_zeros 8 bits) NUM_SLOTS); [lia|].
    simpl. rewrite Nat.add_0_r. apply emits_ret.
  - destruct (mask_slots NUM_SLOTS bits) as [|k ks] eqn:Ek.
    + apply Nat.leb_le in St. destruct (Nat.ltb_spec (trailing_zeros 8 bits) NUM_SLOTS); [lia|].
      simpl. rewrite Nat.add_0_r. apply emits_ret.
    + rewrite !andb_true_iff in St. destruct St as ((((S1 & S2) & S3) & S4) & S5).
      apply Nat.eqb_eq in S1. apply Nat.ltb_lt in S2, S3. apply N.ltb_lt in S4. apply nlist_eqb_eq in S5.
      rewrite S1. destruct (Nat.ltb_spec k NUM_SLOTS); [|lia].
      unfold xor_bit, shl8, shamt8. destruct (Nat.ltb_spec k 8); [|lia]. cbn [rmap].
      destruct (Hd k (or_introl eq_refl)) as (d & E1). simpl. rewrite E1.
      specialize (IH (N.lxor bits (N.shiftl 1 (N.of_nat k) mod 256)) (o + length d) S4).
      rewrite S5 in IH. specialize (IH ltac:(simpl in Hf; lia) (fun i Hi => Hd i (or_intror Hi))).
      eapply emits_eq; [|reflexivity|].
      * eapply emits_bind with (bs1 := []); [apply emits_lift; reflexivity|].
        simpl. rewrite Nat.add_0_r. eapply emits_bind; [apply emits_extend|].
        change (concat (map ?f ks)) with ([] ++ concat (map f ks)).
        eapply emits_bind with (bs1 := []); [apply emits_lift; reflexivity|].
        simpl. rewrite Nat.add_0_r. exact IH.
      * rewrite app_length. lia.
Qed.

Lemma emits_digests m o : (d_slot_mask m < 256)%N ->
  (forall i, i < NUM_SLOTS -> slot_in_mask (d_slot_mask m) i = true -> exists d, nth_error (d_digests m) i = Some (Some d)) ->
  let bs := digests_layout NUM_SLOTS (d_slot_mask m) (slot_digest m) in
  emits o (digests_write_body m) BufferFull bs (o + length bs).
Proof.
  intros Hm Hd. cbv zeta. unfold digests_write_body, write_digests, digests_layout.
  eapply emits_eq; [emits_go|reflexivity|].
  - rewrite Nat.add_0_r. apply emits_digests_loop; auto.
    + pose proof (mask_slots_length NUM_SLOTS (d_slot_mask m)). lia.
    + intros i Hi. apply mask_slots_in in Hi as [H1 H2]. auto.
  - unfold slot_digest, mask_slots. rewrite !app_length. simpl. lia.
Qed.
End Gram.
