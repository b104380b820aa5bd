(** C09, C10: NEGOTIATE_ALGORITHMS and ALGORITHMS. *)
From Verif Require Import Base BaseLemmas Config Encoding MsgCommon MsgAlgorithms SpecWire
     WriterLogic ReaderLogic ReaderLoops FlagLemmas GramBasic GramAlg PropTools Sample.

Section Props.
Context {cfg : Config}.

Definition write_negotiate_algorithms (m : NegotiateAlgorithms) :=
  write_msg NegotiateAlgorithms_id (fun e => e) (negotiate_algorithms_write_body m).
Definition write_algorithms (m : Algorithms) := write_msg Algorithms_id (fun e => e) (algorithms_write_body m).

(** The encodings the writers produce, for structure table [es]. *)
Definition negotiate_enc (m : NegotiateAlgorithms) (es : list AlgorithmRequest) : list N :=
  [0x11; 0xE3]%N ++
  negotiate_layout (N.of_nat (length es)) (32 + 4 * N.of_nat (length es)) (na_measurement_spec m)
                   (na_base_asym_algo m) (na_base_hash_algo m) [] [] (no_ext es).
Definition algorithms_enc (m : Algorithms) (es : list AlgorithmRequest) : list N :=
  [0x11; 0x63]%N ++
  algorithms_layout (N.of_nat (length es)) (36 + 4 * N.of_nat (length es)) (al_measurement_spec m)
                    (al_measurement_hash m) (al_base_asym m) (al_base_hash m) (no_ext es).

Lemma alg_table_no_ext_len es : length (alg_table (no_ext es)) = 4 * length es.
Proof.
  induction es as [|a es IH]; [reflexivity|]. unfold no_ext in *. cbn [map].
  change (alg_table ((a, []) :: ?t)) with (alg_struct_bytes a [] ++ alg_table t).
  rewrite app_length, IH. simpl length. lia.
Qed.

(** Writing: the layout, with a Length field equal to the size of the message. *)
Theorem C09_negotiate_write m es unused :
  na_num_requests m = N.of_nat (length es) -> na_requests m = es ++ unused ->
  writes_exactly (write_negotiate_algorithms m) (fun e => e = BufferFull) (negotiate_enc m es) /\
  length (negotiate_enc m es) = 32 + 4 * length es.
Proof.
  intros H1 H2. split.
  - exact (writes_of NegotiateAlgorithms_id (fun e => e) _ _ (emits_negotiate m es unused 2 H1 H2)).
  - unfold negotiate_enc, negotiate_layout. rewrite !app_length, alg_table_no_ext_len. simpl length. lia.
Qed.

Lemma alg_struct_is_bytes a ext : alg_struct_ok a -> ext_ok 15 ext -> bytes ext -> bytes (alg_struct_bytes a ext).
Proof.
  intros Ha (n & Hn & Hl) He. unfold alg_struct_bytes. bts.
  - destruct a; red; simpl; lia.
  - rewrite Hl. replace (4 * n) with (n * 4) by lia. rewrite Nat.div_mul by lia. red; lia.
Qed.
Lemma alg_table_is_bytes t : Forall alg_entry_ok t -> Forall (fun p => bytes (snd p)) t -> bytes (alg_table t).
Proof.
  intros H1 H2. unfold alg_table. bts. rewrite Forall_forall in *. intros [a e] Hin.
  destruct (H1 _ Hin). apply alg_struct_is_bytes; auto.
Qed.
Lemma no_ext_ok es : Forall alg_struct_ok es -> Forall alg_entry_ok (no_ext es) /\ Forall (fun p => bytes (snd p)) (no_ext es).
Proof.
  intros H. unfold no_ext. split; apply Forall_forall; intros p Hp; apply in_map_iff in Hp as (a & <- & Ha).
  - split; simpl; [rewrite Forall_forall in H; auto|exists 0; simpl; lia].
  - constructor.
Qed.
Lemma no_ext_fst es : map fst (no_ext es) = es.
Proof. unfold no_ext. rewrite map_map. simpl. apply map_id. Qed.
Lemma no_ext_len es : length (no_ext es) = length es.
Proof. apply map_length. Qed.

Theorem C09_negotiate_round_trip m es :
  na_num_requests m = N.of_nat (length es) -> alg_array (na_requests m) es -> Forall alg_struct_ok es ->
  only_bits meas_spec_bits (na_measurement_spec m) -> only_bits asym_bits (na_base_asym_algo m) ->
  only_bits hash_bits (na_base_hash_algo m) ->
  round_trips (write_negotiate_algorithms m) negotiate_algorithms_parse_body m.
Proof.
  intros H1 H2 H3 H4 H5 H6. pose proof H2 as [L E].
  destruct (C09_negotiate_write m es _ H1 E) as [W _].
  destruct (no_ext_ok es H3) as [O1 O2].
  eapply round_trips_of; [exact W|apply rspec_negotiate| |].
  - unfold negotiate_layout. bts; try (red; simpl; lia).
    + now apply bits8.
    + now apply alg_table_is_bytes.
  - exists (32 + 4 * N.of_nat (length es))%N, [], [], (no_ext es).
    rewrite no_ext_fst, no_ext_len. repeat split; auto; try lia; exists 0; simpl; lia.
Qed.

(** Parsing: exactly the layout, with any extended algorithms, which do not
    appear in the result; only defined bits are accepted. *)
Theorem C09_negotiate_parse : parses_exactly negotiate_algorithms_parse_body negotiate_fmt.
Proof. exact (parses_of _ _ _ rspec_negotiate). Qed.

(** Adding extended algorithms to the message, with the counts set accordingly,
    does not change what is parsed. *)
Theorem C09_extended_algorithms_skipped m es len ext_asym ext_hash exts rest :
  na_num_requests m = N.of_nat (length es) -> alg_array (na_requests m) es -> Forall alg_struct_ok es ->
  only_bits meas_spec_bits (na_measurement_spec m) -> only_bits asym_bits (na_base_asym_algo m) ->
  only_bits hash_bits (na_base_hash_algo m) ->
  (len <= 128)%N -> ext_ok 255 ext_asym -> ext_ok 255 ext_hash ->
  length exts = length es -> Forall (ext_ok 15) exts ->
  bytes ext_asym -> bytes ext_hash -> Forall bytes exts -> bytes rest ->
  negotiate_algorithms_parse_body
    (negotiate_layout (N.of_nat (length es)) len (na_measurement_spec m) (na_base_asym_algo m)
                      (na_base_hash_algo m) ext_asym ext_hash (combine es exts) ++ rest) = Ok m.
Proof.
  intros H1 H2 H3 H4 H5 H6 HL E1 E2 LE EE B1 B2 B3 B4.
  assert (Hfst : map fst (combine es exts) = es).
  { clear -LE. revert exts LE. induction es; intros [|x exts]; simpl; auto; try discriminate. intros [=]. f_equal; auto. }
  assert (Hlen : length (combine es exts) = length es) by (rewrite combine_length; lia).
  assert (HO : Forall alg_entry_ok (combine es exts)).
  { apply Forall_forall. intros [a x] Hin. pose proof (in_combine_l _ _ _ _ Hin). pose proof (in_combine_r _ _ _ _ Hin).
    rewrite Forall_forall in *. split; simpl; auto. }
  assert (HB : Forall (fun p => bytes (snd p)) (combine es exts)).
  { apply Forall_forall. intros [a x] Hin. pose proof (in_combine_r _ _ _ _ Hin).
    rewrite Forall_forall in *. simpl; auto. }
  destruct H2 as [HL4 HA].
  destruct (ext_ok_div _ _ E1) as [D1 D1']. destruct (ext_ok_div _ _ E2) as [D2 D2'].
  apply C09_negotiate_parse.
  - unfold negotiate_layout. bts; try (red; lia).
    + now apply bits8.
    + now apply alg_table_is_bytes.
  - eexists _, rest. split; [reflexivity|]. exists len, ext_asym, ext_hash, (combine es exts).
    rewrite Hfst, Hlen. repeat split; auto.
Qed.

(** ALGORITHMS. *)
Theorem C10_algorithms_write m es unused :
  al_num_responses m = N.of_nat (length es) -> al_responses m = es ++ unused ->
  writes_exactly (write_algorithms m) (fun e => e = BufferFull) (algorithms_enc m es) /\
  length (algorithms_enc m es) = 36 + 4 * length es.
Proof.
  intros H1 H2. split.
  - exact (writes_of Algorithms_id (fun e => e) _ _ (emits_algorithms m es unused 2 H1 H2)).
  - unfold algorithms_enc, algorithms_layout. rewrite !app_length, alg_table_no_ext_len. simpl length. lia.
Qed.

Theorem C10_algorithms_round_trip m es :
  al_num_responses m = N.of_nat (length es) -> alg_array (al_responses m) es -> Forall alg_one_bit es ->
  one_bit_of meas_spec_bits (al_measurement_spec m) -> one_bit_of hash_bits (al_measurement_hash m) ->
  one_bit_of asym_bits (al_base_asym m) -> one_bit_of hash_bits (al_base_hash m) ->
  round_trips (write_algorithms m) algorithms_parse_body m.
Proof.
  intros H1 H2 H3 H4 H5 H6 H7. pose proof H2 as [L E].
  destruct (C10_algorithms_write m es _ H1 E) as [W _].
  assert (H3' : Forall alg_struct_ok es).
  { eapply Forall_impl; [|exact H3]. intros a. apply one_only. }
  destruct (no_ext_ok es H3') as [O1 O2].
  eapply round_trips_of; [exact W|apply rspec_algorithms| |].
  - unfold algorithms_layout. bts; try (red; simpl; lia).
    + apply bits8. now apply one_only.
    + now apply alg_table_is_bytes.
  - exists (36 + 4 * N.of_nat (length es))%N, (no_ext es).
    rewrite no_ext_fst, no_ext_len. repeat split; auto; try lia.
    clear -H3. unfold no_ext. induction H3; simpl; constructor; auto.
Qed.

Theorem C10_algorithms_parse : parses_exactly algorithms_parse_body algorithms_fmt.
Proof. exact (parses_of _ _ _ rspec_algorithms). Qed.

(** Whatever was parsed selects exactly one defined algorithm everywhere. *)
Theorem C10_one_selection buf m : bytes buf -> algorithms_parse_body buf = Ok m ->
  one_bit_of meas_spec_bits (al_measurement_spec m) /\ one_bit_of hash_bits (al_measurement_hash m) /\
  one_bit_of asym_bits (al_base_asym m) /\ one_bit_of hash_bits (al_base_hash m) /\
  N.to_nat (al_num_responses m) <= 4 /\
  forall i a, i < N.to_nat (al_num_responses m) -> nth_error (al_responses m) i = Some a -> alg_one_bit a.
Proof.
  intros Hb H. apply C10_algorithms_parse in H; auto.
  destruct H as (bs & rest & -> & len & t & _ & _ & Ho & H1 & H2 & H3 & H4 & Hn & [Hl Ha] & _).
  rewrite map_length in Hl.
  repeat split; auto.
  - rewrite Hn. lia.
  - intros i a Hi. rewrite Hn, Nat2N.id in Hi. rewrite Ha, nth_error_app1 by (rewrite map_length; lia).
    intros Hnth. apply nth_error_In in Hnth. apply in_map_iff in Hnth as (p & <- & Hp).
    rewrite Forall_forall in Ho. auto.
Qed.
End Props.

#[local] Existing Instance sample_cfg.
Definition sample_negotiate : NegotiateAlgorithms :=
  mkNA 1 0x10 3 2 [Dhe 8; Aead 2; Dhe 0; Dhe 0].
Lemma check_bits l v : N.land v (mask_of l) = v -> only_bits l v.
Proof. intros H. apply (from_bits_only (mask_of l) l v v eq_refl). unfold from_bits. now rewrite H, N.eqb_refl. Qed.
Example C09_nonvacuous :
  na_num_requests sample_negotiate = N.of_nat (length [Dhe 8; Aead 2]) /\
  alg_array (na_requests sample_negotiate) [Dhe 8; Aead 2] /\ Forall alg_struct_ok [Dhe 8; Aead 2] /\
  only_bits meas_spec_bits 1 /\ only_bits asym_bits 0x10 /\ only_bits hash_bits 3 /\
  ext_ok 255 [1; 2; 3; 4]%N /\ Forall (ext_ok 15) [[]; [9; 9; 9; 9; 8; 8; 8; 8]%N] /\
  negotiate_algorithms_parse_body
    (negotiate_layout 2 48 1 0x10 3 [1; 2; 3; 4]%N [] [(Dhe 8, []); (Aead 2, [9; 9; 9; 9; 8; 8; 8; 8])]%N) =
    Ok sample_negotiate.
Proof.
  repeat split; try (apply check_bits; reflexivity); auto; try reflexivity.
  - repeat (apply Forall_cons; [apply check_bits; reflexivity|]). constructor.
  - exists 1. simpl; lia.
  - apply Forall_cons; [exists 0; simpl; lia|]. apply Forall_cons; [exists 2; simpl; lia|constructor].
Qed.
Definition sample_algorithms : Algorithms := mkAlgorithms 1 1 0x10 1 1 [Dhe 8; Dhe 0; Dhe 0; Dhe 0].
Example C10_nonvacuous :
  alg_array (al_responses sample_algorithms) [Dhe 8] /\ Forall alg_one_bit [Dhe 8] /\
  one_bit_of meas_spec_bits 1 /\ one_bit_of hash_bits 1 /\ one_bit_of asym_bits 0x10 /\
  algorithms_parse_body (algorithms_layout 1 40 1 1 0x10 1 [(Dhe 8, [])]) = Ok sample_algorithms /\
  algorithms_parse_body (algorithms_layout 1 40 1 1 0x18 1 [(Dhe 8, [])]) = Err MoreThanOneBaseAsymAlgoSelected.
Proof.
  repeat split; auto; try reflexivity.
  - constructor; [|constructor]. exists 3%N. simpl; auto 10.
  - exists 0%N; simpl; auto.
  - exists 0%N; simpl; auto.
  - exists 4%N; simpl; auto 10.
Qed.
Print Assumptions C09_extended_algorithms_skipped.
Print Assumptions C10_algorithms_round_trip.
