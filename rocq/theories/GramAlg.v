(** NEGOTIATE_ALGORITHMS and ALGORITHMS. *)
From Verif Require Import Base BaseLemmas Config Encoding MsgCommon MsgVersion MsgCapabilities MsgAlgorithms
     WriterLogic ReaderLogic ReaderBits ReaderLoops SpecWire FlagLemmas GramBasic.

Lemma ext_ok_div max ext : ext_ok max ext -> length ext = 4 * (length ext / 4) /\ length ext / 4 <= max.
Proof.
  intros (n & Hn & E). rewrite E, Nat.mul_comm, Nat.div_mul by lia. lia.
Qed.

Section Gram.
Context {cfg : Config}.


Definition alg_struct_fmt (bs : list N) (a : AlgorithmRequest) : Prop :=
  exists ext, alg_struct_ok a /\ ext_ok 15 ext /\ bs = alg_struct_bytes a ext.

Lemma seq_of_alg_table bs (ys : list AlgorithmRequest) :
  seq_of alg_struct_fmt bs ys <->
  exists t, map fst t = ys /\ Forall alg_entry_ok t /\ bs = alg_table t.
Proof.
  split.
  - induction 1 as [|b x bs xs (ext & H1 & H2 & ->) _ (t & <- & HF & ->)].
    + exists []. repeat split; auto.
    + exists ((x, ext) :: t). repeat split; auto. constructor; auto. now split.
  - intros (t & <- & HF & ->). unfold alg_table. induction HF as [|[a ext] t [H1 H2] _ IH]; cbn [map concat fst snd].
    + constructor.
    + constructor; auto. exists ext. auto.
Qed.

Lemma rspec_alg_struct all l (mk : N -> AlgorithmRequest) ty :
  all = mask_of l -> (forall i, In i l -> (i < 16)%N) ->
  (forall s, alg_struct_bits (mk s) = l) -> (forall s, alg_struct_fixed (mk s) = s) ->
  (forall s, alg_struct_type (mk s) = ty) ->
  rspec 0 (alg_struct_read all mk)
    (fun bs a => alg_struct_fmt ([ty] ++ bs) a /\ exists s, a = mk s) never.
Proof.
  intros Hall Hl Hbits Hfix Hty. unfold alg_struct_read. eapply rspec_weaken; [rgo| |reflexivity].
  intros bs a Hb; cbv beta. split.
  - intros (b & t & -> & b1 & b2 & fc & E1 & (b' & -> & ->) & Hfc & b3 & b4 & s & E2 & (-> & Hs) & s' & Hs' & b5 & b6 & [] & -> & Hlen & -> & ->).
    injection E1 as <- ->. subst b2. bools. change FIXED_ALG_COUNT with 2%N in Hfc.
    apply (from_bits_only _ _ _ _ Hall) in Hs' as [-> Ho].
    inversion Hb as [|? ? Hbb Hrest]; subst. destruct (nibbles b Hbb) as (A1 & A2 & A3).
    split; [|eauto]. exists b5. unfold alg_struct_ok, alg_struct_bytes. rewrite Hbits, Hfix, Hty. repeat split; auto.
    + exists (N.to_nat (field b 0 4)). split; lia.
    + rewrite app_nil_r. change (le_bytes 2 s) with (u16le s). cbn [app]. do 2 f_equal.
      rewrite Hlen, Nat.mul_comm, Nat.div_mul by lia. rewrite N2Nat.id. rewrite Hfc in A3. lia.
  - intros ((ext & Ho & He & E) & s & ->). unfold alg_struct_ok, alg_struct_bytes in *.
    rewrite Hbits, Hfix in Ho. rewrite Hfix, Hty in E. apply (f_equal (@tl N)) in E. cbn [tl app] in E. subst bs.
    destruct (ext_ok_div _ _ He) as [E1 E2].
    eexists _, _. split; [reflexivity|]. eexists [_], _, _. split; [reflexivity|].
    split; [eexists; split; reflexivity|].
    split. { rewrite high_nibble by lia. reflexivity. }
    eexists (u16le s), _, s. split; [reflexivity|]. split.
    { split; [reflexivity|]. apply (only_bits_bound _ _ 16) in Ho; auto. }
    exists s. split. { apply (from_bits_only _ _ _ _ Hall). auto. }
    exists ext, [], tt. split; [now rewrite app_nil_r|]. split; [|auto].
    rewrite low_nibble by lia. lia.
Qed.

Lemma rspec_ar_read : rspec 0 ar_read alg_struct_fmt never.
Proof.
  unfold ar_read. eapply rspec_weaken; [eapply rspec_bind' with
    (Q := fun ty bs a => alg_struct_fmt ([ty] ++ bs) a); [rgo|]| |reflexivity].
  - intros ty _ _ _.
    destruct (N.eqb_spec ty Dhe_TYPE) as [->|N1].
    { eapply rspec_weaken; [apply (rspec_alg_struct Dhe_all _ Dhe 2 Dhe_all_mask); auto;
        apply bound_check; reflexivity| |reflexivity].
      intros bs a _. split; [tauto|]. intros H. split; auto. destruct H as (ext & _ & _ & E).
      injection E as E _. destruct a; try discriminate; eauto. }
    destruct (N.eqb_spec ty Aead_TYPE) as [->|N2].
    { eapply rspec_weaken; [apply (rspec_alg_struct Aead_all _ Aead 3 Aead_all_mask); auto;
        apply bound_check; reflexivity| |reflexivity].
      intros bs a _. split; [tauto|]. intros H. split; auto. destruct H as (ext & _ & _ & E).
      injection E as E _. destruct a; try discriminate; eauto. }
    destruct (N.eqb_spec ty ReqBaseAsym_TYPE) as [->|N3].
    { eapply rspec_weaken; [apply (rspec_alg_struct ReqBaseAsym_all _ ReqBaseAsym 4 ReqBaseAsym_all_mask); auto;
        apply bound_check; reflexivity| |reflexivity].
      intros bs a _. split; [tauto|]. intros H. split; auto. destruct H as (ext & _ & _ & E).
      injection E as E _. destruct a; try discriminate; eauto. }
    destruct (N.eqb_spec ty KeySchedule_TYPE) as [->|N4].
    { eapply rspec_weaken; [apply (rspec_alg_struct KeySchedule_all _ KeySchedule 5 KeySchedule_all_mask); auto;
        apply bound_check; reflexivity| |reflexivity].
      intros bs a _. split; [tauto|]. intros H. split; auto. destruct H as (ext & _ & _ & E).
      injection E as E _. destruct a; try discriminate; eauto. }
    eapply rspec_weaken; [apply rspec_err| |reflexivity]. intros bs a _. split; [tauto|].
    intros (ext & _ & _ & E). injection E as E _. destruct a; subst; simpl in *; [now apply N1|now apply N2|now apply N3|now apply N4].
  - intros bs a _; cbv beta. split.
    + intros (b1 & b2 & ty & -> & -> & H). exact H.
    + intros (ext & H1 & H2 & ->). unfold alg_struct_bytes. eexists [_], _, _. split; [reflexivity|].
      split; [reflexivity|]. exists ext. auto.
Qed.



Lemma bits8 v : only_bits meas_spec_bits v -> is_byte v.
Proof. intros H. apply (only_bits_bound _ _ 8) in H; [exact H|]. apply bound_check. reflexivity. Qed.
Lemma bits32a v : only_bits asym_bits v -> (v < 4294967296)%N.
Proof. intros H. apply (only_bits_bound _ _ 32) in H; [exact H|]. apply bound_check. reflexivity. Qed.
Lemma bits32h v : only_bits hash_bits v -> (v < 4294967296)%N.
Proof. intros H. apply (only_bits_bound _ _ 32) in H; [exact H|]. apply bound_check. reflexivity. Qed.

Lemma rspec_negotiate : rspec 0 negotiate_algorithms_parse negotiate_fmt never.
Proof.
  unfold negotiate_algorithms_parse. eapply rspec_weaken; [rgo| |reflexivity].
  { eapply rspec_fill; [apply rspec_map_err; apply rspec_ar_read|].
    bools. lia. }
  intros bs m Hb; cbv beta. split.
  - intros (? & ? & n & -> & -> & Hn & ? & ? & [] & -> & -> & ? & ? & len & -> & (-> & _) & Hlen &
            ? & ? & spec & -> & -> & spec' & Hspec & ? & ? & [] & -> & -> &
            ? & ? & asym & -> & (-> & _) & asym' & Hasym & ? & ? & hash & -> & (-> & _) & hash' & Hhash &
            ? & ? & [] & -> & -> & ? & ? & na & -> & -> & ? & ? & nh & -> & -> & ? & ? & [] & -> & -> &
            ea & ? & [] & -> & Hea & eh & ? & [] & -> & Heh & ? & ? & l & -> & (es & Hes & Hs & ->) & -> & ->).
    bools.
    apply (from_bits_only _ _ _ _ MeasurementSpec_all_mask) in Hspec as [-> Hspec].
    apply (from_bits_only _ _ _ _ BaseAsymAlgo_all_mask) in Hasym as [-> Hasym].
    apply (from_bits_only _ _ _ _ BaseHashAlgo_all_mask) in Hhash as [-> Hhash].
    apply seq_of_alg_table in Hs as (t & <- & HF & ->). rewrite map_length in Hes.
    unfold MAX_ALGORITHM_REQUESTS in *.
    assert (Hn1 : n = N.of_nat (length t)) by lia.
    exists len, ea, eh, t.
    assert (is_byte na /\ is_byte nh) as [Ba Bh].
    { repeat (match goal with H : bytes (_ ++ _) |- _ => apply bytes_app in H as [? ?] end).
      split; match goal with H : bytes [?x] |- is_byte ?x => now inversion H end. }
    unfold is_byte in *.
    repeat split; auto; simpl.
    + exists (N.to_nat na). lia.
    + exists (N.to_nat nh). lia.
    + rewrite map_length. lia.
    + rewrite map_length, <- Hes. reflexivity.
    + unfold negotiate_layout. rewrite Hea, Heh, !Nat.div_mul, !N2Nat.id, app_nil_r by lia. rewrite Hn1. reflexivity.
  - intros (len & ea & eh & t & Hlen & Hea & Heh & HF & Hspec & Hasym & Hhash & Hnum & (Hl4 & Harr) & ->).
    destruct m as [spec asym hash n arr]; simpl in *. subst n arr. rewrite map_length in *.
    destruct (ext_ok_div _ _ Hea) as [Ea1 Ea2]. destruct (ext_ok_div _ _ Heh) as [Eh1 Eh2].
    unfold negotiate_layout. gnil. gback.
    + apply Nat.ltb_ge. unfold MAX_ALGORITHM_REQUESTS. lia.
    + lia.
    + apply N.ltb_ge. auto.
    + apply (from_bits_only _ _ _ _ MeasurementSpec_all_mask). auto.
    + now apply bits32a.
    + apply (from_bits_only _ _ _ _ BaseAsymAlgo_all_mask). auto.
    + now apply bits32h.
    + apply (from_bits_only _ _ _ _ BaseHashAlgo_all_mask). auto.
    + rewrite Nat2N.id. lia.
    + rewrite Nat2N.id. lia.
    + exists (map fst t). rewrite map_length, Nat2N.id. repeat split.
      apply seq_of_alg_table. exists t. auto.
    + reflexivity.
Qed.

(** ** ALGORITHMS *)
Lemma rspec_one_selection all l inv more bits : all = mask_of l ->
  rspec 0 (one_selection all inv more bits) (fun bs v => bs = [] /\ v = bits /\ one_bit_of l bits) never.
Proof.
  intros Hall. unfold one_selection. eapply rspec_weaken; [rgo| |reflexivity].
  intros bs v _; cbv beta. rewrite <- one_bit_iff. split.
  - intros (a & Ha & Hc & -> & ->). bools. apply (from_bits_only _ _ _ _ Hall) in Ha as [-> Ha]. auto.
  - intros (-> & -> & Ho & Hc). exists bits. repeat split; auto.
    + apply (from_bits_only _ _ _ _ Hall). auto.
    + now rewrite Hc.
Qed.


Lemma rspec_alg_response :
  rspec 0 alg_response_read (fun bs a => alg_one_bit a /\ alg_struct_fmt bs a) never.
Proof.
  unfold alg_response_read. eapply rspec_weaken; [eapply rspec_bind; [apply rspec_map_err, rspec_ar_read|]| |].
  - intros a bs _ _. eapply rspec_lift_bind. intros; apply rspec_ret.
  - intros bs a _; cbv beta. unfold alg_one_bit. rewrite <- one_bit_iff. split.
    + intros (b1 & b2 & x & -> & Hx & [] & Hu & -> & ->). rewrite app_nil_r.
      assert (Ho : alg_struct_ok x) by (destruct Hx as (? & ? & _); auto).
      split; auto. split; auto.
      destruct x; simpl in *; match goal with H : context [?n =? 1] |- _ => destruct (Nat.eqb_spec n 1) end; congruence.
    + intros [[Ho Hc] Hf]. exists bs, [], a. rewrite app_nil_r. repeat split; auto.
      exists tt. repeat split; auto. destruct a; simpl in *; now rewrite Hc.
  - intros inp _; cbv beta. unfold never. split; [|tauto].
    intros [[]|(b1 & rest & a & _ & _ & [(p & Hp)|(? & _ & [])])].
    destruct a; simpl in Hp; match type of Hp with context [?n =? 1] => destruct (n =? 1) end; discriminate.
Qed.


Lemma one_only l v : one_bit_of l v -> only_bits l v.
Proof. rewrite <- one_bit_iff. tauto. Qed.

Lemma seq_of_and {A} (Q : A -> Prop) (P : list N -> A -> Prop) bs ys :
  seq_of (fun b x => Q x /\ P b x) bs ys <-> Forall Q ys /\ seq_of P bs ys.
Proof.
  split.
  - induction 1 as [|b x bs xs [H1 H2] _ [IH1 IH2]]; split; constructor; auto.
  - intros [HF H]. induction H; inversion HF; subst; constructor; auto.
Qed.

Lemma rspec_algorithms : rspec 0 algorithms_parse algorithms_fmt never.
Proof.
  unfold algorithms_parse. eapply rspec_weaken; [rgo| |reflexivity].
  1: exact (rspec_one_selection _ _ _ _ _ MeasurementSpec_all_mask).
  1: exact (rspec_one_selection _ _ _ _ _ BaseHashAlgo_all_mask).
  1: exact (rspec_one_selection _ _ _ _ _ BaseAsymAlgo_all_mask).
  1: exact (rspec_one_selection _ _ _ _ _ BaseHashAlgo_all_mask).
  { eapply rspec_fill; [apply rspec_alg_response|]. bools. unfold MAX_ALGORITHM_REQUESTS in *. lia. }
  intros bs m Hb; cbv beta. split.
  - intros (? & ? & n & -> & -> & Hn & ? & ? & [] & -> & -> & ? & ? & len & -> & (-> & Hlen) &
            ? & ? & spec & -> & -> & ? & ? & spec' & -> & (-> & -> & Hspec) & ? & ? & [] & -> & -> &
            ? & ? & mh & -> & (-> & _) & ? & ? & mh' & -> & (-> & -> & Hmh) &
            ? & ? & asym & -> & (-> & _) & ? & ? & asym' & -> & (-> & -> & Hasym) &
            ? & ? & hash & -> & (-> & _) & ? & ? & hash' & -> & (-> & -> & Hhash) &
            ? & ? & [] & -> & -> & ? & ? & [] & -> & -> & ? & ? & [] & -> & -> & ? & ? & [] & -> & -> &
            ? & ? & l & -> & (es & Hes & Hs & ->) & -> & ->).
    bools. apply seq_of_and in Hs as [Hone Hs].
    apply seq_of_alg_table in Hs as (t & <- & HF & ->). rewrite map_length in Hes.
    unfold MAX_ALGORITHM_REQUESTS in *.
    assert (Hn1 : n = N.of_nat (length t)) by lia.
    exists len, t. repeat split; auto; cbn [al_measurement_spec al_measurement_hash al_base_asym al_base_hash al_num_responses al_responses].
    + exact (proj1 (Forall_map fst alg_one_bit t) Hone).
    + rewrite map_length. lia.
    + rewrite map_length, <- Hes. reflexivity.
    + unfold algorithms_layout. rewrite !app_nil_r. rewrite Hn1. reflexivity.
  - intros (len & t & Hlen & HF & Hone & Hspec & Hmh & Hasym & Hhash & Hnum & (Hl4 & Harr) & ->).
    destruct m as [spec mh asym hash n arr]; cbn [al_measurement_spec al_measurement_hash al_base_asym al_base_hash al_num_responses al_responses] in *.
    subst n arr. rewrite map_length in *.
    unfold algorithms_layout. gnil.
    assert (Hm : (N.of_nat (length t) <= 4)%N) by lia.
    eexists _, _, _. split; [reflexivity|]. split; [reflexivity|]. split.
    { apply Nat.ltb_ge. unfold MAX_ALGORITHM_REQUESTS. lia. }
    eexists _, _, tt. split; [reflexivity|]. split; [reflexivity|].
    eexists _, _, len. split; [reflexivity|]. split; [auto|].
    eexists _, _, spec. split; [reflexivity|]. split; [reflexivity|].
    eexists [], _, spec. split; [exact (eq_sym (app_nil_l _))|]. split; [auto|].
    eexists _, _, tt. split; [reflexivity|]. split; [reflexivity|].
    eexists _, _, mh. split; [reflexivity|]. split; [split; [reflexivity|now apply bits32h, one_only]|].
    eexists [], _, mh. split; [exact (eq_sym (app_nil_l _))|]. split; [auto|].
    eexists _, _, asym. split; [reflexivity|]. split; [split; [reflexivity|now apply bits32a, one_only]|].
    eexists [], _, asym. split; [exact (eq_sym (app_nil_l _))|]. split; [auto|].
    eexists _, _, hash. split; [reflexivity|]. split; [split; [reflexivity|now apply bits32h, one_only]|].
    eexists [], _, hash. split; [exact (eq_sym (app_nil_l _))|]. split; [auto|].
    gback.
    + exists (map fst t). rewrite map_length, Nat2N.id. repeat split.
      apply seq_of_and. split; [now apply Forall_map|]. apply seq_of_alg_table. exists t. auto.
    + reflexivity.
Qed.

(** ** Writers *)
Lemma alg_struct_bytes_noext a :
  alg_struct_bytes a [] = [alg_struct_type a; 32%N] ++ u16le (alg_struct_fixed a).
Proof. unfold alg_struct_bytes. now rewrite app_nil_r. Qed.

Lemma emits_ar a o : emits o (ar_write a) BufferFull (alg_struct_bytes a []) (o + 4).
Proof.
  rewrite alg_struct_bytes_noext.
  destruct a; unfold ar_write, alg_struct_write; (eapply emits_eq; [emits_go|reflexivity|simpl; lia]).
Qed.


Lemma alg_table_app a b : alg_table (a ++ b) = alg_table a ++ alg_table b.
Proof. unfold alg_table. now rewrite map_app, concat_app. Qed.

Lemma emits_alg_structs es pre suf o :
  emits o (write_alg_structs (length es) (length pre) (pre ++ es ++ suf)) BufferFull (alg_table (no_ext es)) tt.
Proof.
  revert pre o. induction es as [|a es IH]; intros pre o; cbn [length write_alg_structs].
  - apply emits_ret.
  - cbn [app]. rewrite nth_error_mid.
    replace (alg_table (no_ext (a :: es))) with (alg_struct_bytes a [] ++ alg_table (no_ext es)) by reflexivity.
    eapply emits_bind; [apply emits_ar|].
    replace (pre ++ a :: es ++ suf) with ((pre ++ [a]) ++ es ++ suf) by (now rewrite <- app_assoc).
    replace (S (length pre)) with (length (pre ++ [a])) by (rewrite app_length; simpl; lia).
    apply IH.
Qed.

Lemma alg_msg_length_ok {E} base es suf :
  @alg_msg_length E base (N.of_nat (length es)) (es ++ suf) = Ok (base + 4 * N.of_nat (length es))%N.
Proof.
  unfold alg_msg_length. rewrite Nat2N.id, app_length.
  destruct (Nat.leb_spec (length es) (length es + length suf)); [|lia].
  rewrite firstn_app_exact by auto. f_equal. revert base. induction es as [|a es IH]; intros base; cbn [fold_left length].
  - lia.
  - rewrite IH by lia. destruct a; cbn [fixed_algo_count]; unfold FIXED_ALG_COUNT; lia.
Qed.

Lemma emits_negotiate m es suf o :
  na_num_requests m = N.of_nat (length es) -> na_requests m = es ++ suf ->
  let bs := negotiate_layout (N.of_nat (length es)) (32 + 4 * N.of_nat (length es)) (na_measurement_spec m)
                             (na_base_asym_algo m) (na_base_hash_algo m) [] [] (no_ext es) in
  emits o (negotiate_algorithms_write_body m) BufferFull bs (o + length bs).
Proof.
  intros Hn Hr bs. unfold negotiate_algorithms_write_body. rewrite Hn, Hr, alg_msg_length_ok, Nat2N.id.
  eapply emits_eq.
  - emits_go. apply (emits_alg_structs es [] suf).
  - unfold bs, negotiate_layout. cbn [app length]. rewrite !app_nil_r. reflexivity.
  - unfold bs, negotiate_layout. rewrite !app_length. cbn [app length]. rewrite ?app_length, ?repeat_length. simpl. lia.
Qed.
Lemma emits_algorithms m es suf o :
  al_num_responses m = N.of_nat (length es) -> al_responses m = es ++ suf ->
  let bs := algorithms_layout (N.of_nat (length es)) (36 + 4 * N.of_nat (length es)) (al_measurement_spec m)
                             (al_measurement_hash m) (al_base_asym m) (al_base_hash m) (no_ext es) in
  emits o (algorithms_write_body m) BufferFull bs (o + length bs).
Proof.
  intros Hn Hr bs. unfold algorithms_write_body. rewrite Hn, Hr, alg_msg_length_ok, Nat2N.id.
  eapply emits_eq.
  - emits_go. apply (emits_alg_structs es [] suf).
  - unfold bs, algorithms_layout. cbn [app length]. rewrite !app_nil_r. reflexivity.
  - unfold bs, algorithms_layout. rewrite !app_length. cbn [app length]. rewrite ?app_length, ?repeat_length. simpl. lia.
Qed.
End Gram.
