(** The responder's pure parts against SpecResponder: chains, digests, slot
    masks, algorithm selection. *)
From Verif Require Import Base BaseLemmas Config Encoding MsgCommon MsgVersion MsgCapabilities MsgAlgorithms MsgDigest
     MsgCertificates MsgChallenge MsgError Transcript Crypto Responder SpecWire SpecResponder FlagLemmas GramCert
     PropTools PropTables.

#[local] Opaque chain_bytes.
#[local] Arguments Nat.ltb : simpl never.
Lemma Forall2_len {A B} (P : A -> B -> Prop) a b : Forall2 P a b -> length a = length b.
Proof. induction 1; simpl; congruence. Qed.
Section Parts.
Context {cfg : Config} {cr : Crypto}.

Lemma chain_fits_dec c : chain_fits c \/ ~ chain_fits c.
Proof.
  unfold chain_fits. destruct (Nat.le_gt_cases (length (chain_bytes c)) MAX_CERT_CHAIN_SIZE);
  destruct (N.lt_ge_cases (N.of_nat (length (chain_bytes c))) 65536); intuition lia.
Qed.
Lemma chain_write_fits c buf : length buf = MAX_CERT_CHAIN_SIZE -> chain_fits c ->
  chain_write_to buf c = (Ok (length (chain_bytes c)), chain_bytes c ++ skipn (length (chain_bytes c)) buf).
Proof.
  intros L [F1 F2]. change (chain_write_to buf c) with (write_on (chain_write c) buf).
  apply (write_on_of _ _ _ (emits_chain c 0 F2) buf). lia.
Qed.
Lemma chain_write_error c buf : length buf = MAX_CERT_CHAIN_SIZE -> ~ chain_fits c ->
  exists buf', chain_write_to buf c = (Err (if (65535 <? N.of_nat (length (chain_bytes c)))%N then MaxSizeExceeded else WCCBufferFull), buf').
Proof.
  intros L F. change (chain_write_to buf c) with (write_on (chain_write c) buf).
  destruct (N.ltb_spec 65535 (N.of_nat (length (chain_bytes c)))) as [G|G].
  - unfold write_on. rewrite chain_write_too_long by auto. eauto.
  - destruct (proj2 (write_on_of _ _ _ (emits_chain c 0 ltac:(lia)) buf)) as (e & k & EE & _ & ->); [|subst; eauto].
    rewrite L. destruct (Nat.le_gt_cases (length (chain_bytes c)) MAX_CERT_CHAIN_SIZE); [|auto].
    destruct F. split; [auto|lia].
Qed.
Lemma chain_write_unfit c buf : length buf = MAX_CERT_CHAIN_SIZE -> ~ chain_fits c ->
  exists e buf', chain_write_to buf c = (Err e, buf').
Proof.
  intros L F. change (chain_write_to buf c) with (write_on (chain_write c) buf).
  destruct (N.lt_ge_cases 65535 (N.of_nat (length (chain_bytes c)))) as [G|G].
  - unfold write_on. rewrite chain_write_too_long by auto. eauto.
  - destruct (proj2 (write_on_of _ _ _ (emits_chain c 0 ltac:(lia)) buf)) as (e & k & _ & _ & ->); [|eauto].
    rewrite L. destruct (Nat.le_gt_cases (length (chain_bytes c)) MAX_CERT_CHAIN_SIZE); [|auto].
    destruct F. split; [auto|lia].
Qed.

Lemma hash_usable_dec h : hash_usable h \/ ~ hash_usable h.
Proof.
  unfold hash_usable, sha2. destruct provider; [|right; intros [? _]; discriminate].
  destruct (N.eq_dec h 1), (N.eq_dec h 2), (N.eq_dec h 4), (Nat.le_gt_cases (hash_len h) MAX_DIGEST_SIZE);
    intuition (auto; lia).
Qed.
Lemma digest_usable {E} h data : hash_contract -> hash_usable h -> @provided_digest cfg cr E h data = Ok (sha h data).
Proof.
  intros HC (P & S & L). unfold provided_digest. rewrite P. destruct (HC h data S) as [HL _]. rewrite HL.
  destruct (Nat.leb_spec (hash_len h) MAX_DIGEST_SIZE); [|lia].
  destruct S as [-> | [-> | ->]]; reflexivity.
Qed.
Lemma digest_unusable {E} h data : hash_contract -> ~ hash_usable h -> exists p, @provided_digest cfg cr E h data = Panic p.
Proof.
  intros HC U. unfold provided_digest. destruct provider eqn:P; [|eauto].
  unfold SHA_256, SHA_384, SHA_512.
  destruct (N.eqb_spec h 1); destruct (N.eqb_spec h 2); destruct (N.eqb_spec h 4); simpl; eauto;
   (destruct (HC h data) as [HL _]; [unfold sha2; tauto|]); rewrite HL;
   (destruct (Nat.leb_spec (hash_len h) MAX_DIGEST_SIZE); [|eauto]);
   destruct U; unfold hash_usable, sha2; tauto.
Qed.
Lemma digest_inv {E} h data d : hash_contract -> @provided_digest cfg cr E h data = Ok d -> hash_usable h /\ d = sha h data.
Proof.
  intros HC H. destruct (hash_usable_dec h) as [U|U].
  - rewrite digest_usable in H by auto. injection H as <-. auto.
  - destruct (@digest_unusable E h data HC U) as (p & E1). rewrite E1 in H. discriminate.
Qed.

(** All slots' digests. *)
Definition chain_good (h : N) (o : option CertificateChain) : Prop :=
  match o with None => True | Some c => chain_fits c /\ hash_usable h end.
Lemma hash_chains_ok h chains : hash_contract -> forall buf, length buf = MAX_CERT_CHAIN_SIZE -> Forall (chain_good h) chains ->
  hash_cert_chains h chains buf = Ok (map (option_map (fun c => sha h (chain_bytes c))) chains).
Proof.
  intros HC. induction chains as [|[c|] r IH]; intros buf L HF; simpl; auto; inversion HF as [|? ? H1 H2]; subst.
  - destruct H1 as [F U]. rewrite chain_write_fits by auto. simpl.
    rewrite app_length. destruct (Nat.ltb_spec (length (chain_bytes c) + length (skipn (length (chain_bytes c)) buf)) (length (chain_bytes c))); [lia|].
    rewrite firstn_app_exact by reflexivity. rewrite digest_usable by auto. simpl.
    unfold digest_size. destruct U as (_ & S & LD). destruct (HC h (chain_bytes c) S) as [-> _].
    destruct (Nat.leb_spec (hash_len h) MAX_DIGEST_SIZE); [|lia]. simpl.
    rewrite IH; auto. destruct F as [F _]. rewrite app_length, skipn_length. lia.
  - rewrite IH; auto.
Qed.
Lemma hash_chains_inv h chains : hash_contract -> forall buf ds, length buf = MAX_CERT_CHAIN_SIZE ->
  hash_cert_chains h chains buf = Ok ds -> Forall (chain_good h) chains.
Proof.
  intros HC. induction chains as [|[c|] r IH]; intros buf ds L H; simpl in H; constructor; try exact I.
  - destruct (chain_fits_dec c) as [F|F].
    + rewrite chain_write_fits in H by auto. simpl in H. destruct (_ <? _); [discriminate|].
      destruct (provided_digest h _) as [d|e|p] eqn:E1; try discriminate. apply digest_inv in E1 as [U _]; auto. split; auto.
    + destruct (chain_write_unfit c buf L F) as (e & b' & E1). rewrite E1 in H. discriminate.
  - destruct (chain_fits_dec c) as [F|F].
    + rewrite chain_write_fits in H by auto. simpl in H. destruct (_ <? _); [discriminate|].
      destruct (provided_digest h _) as [d|e|p] eqn:E1; try discriminate. simpl in H.
      destruct (digest_size _) as [?|e|p]; try discriminate. simpl in H.
      destruct (hash_cert_chains h r _) as [ds'|e|p] eqn:E2; try discriminate. eapply IH; [|exact E2].
      destruct F as [F _]. rewrite app_length, skipn_length. lia.
    + destruct (chain_write_unfit c buf L F) as (e & b' & E1). rewrite E1 in H. discriminate.
  - destruct (hash_cert_chains h r buf) as [ds'|e|p] eqn:E2; try discriminate. eapply IH; eauto.
Qed.
(** Hashing panics only if the hash is unusable and some slot is filled. *)
Lemma hash_chains_panic h chains : hash_contract -> forall buf p, length buf = MAX_CERT_CHAIN_SIZE ->
  hash_cert_chains h chains buf = Panic p -> ~ hash_usable h /\ exists c, In (Some c) chains.
Proof.
  intros HC. induction chains as [|[c|] r IH]; intros buf p L H; simpl in H; [discriminate| |].
  - destruct (hash_usable_dec h) as [U|U]; [|split; [auto|exists c; left; auto]].
    destruct (chain_fits_dec c) as [F|F].
    + rewrite chain_write_fits in H by auto. simpl in H. rewrite app_length in H.
      destruct (Nat.ltb_spec (length (chain_bytes c) + length (skipn (length (chain_bytes c)) buf)) (length (chain_bytes c))); [lia|].
      rewrite firstn_app_exact in H by reflexivity. rewrite digest_usable in H by auto. simpl in H.
      unfold digest_size in H. destruct U as (P & S & LD). destruct (HC h (chain_bytes c) S) as [E1 _]. rewrite E1 in H.
      destruct (Nat.leb_spec (hash_len h) MAX_DIGEST_SIZE); [|lia]. simpl in H.
      destruct (hash_cert_chains h r _) as [ds'|e|q] eqn:E2; try discriminate.
      apply IH in E2; [|destruct F as [F _]; rewrite app_length, skipn_length; lia]. destruct E2 as [U' _].
      destruct U'. split; auto.
    + destruct (chain_write_unfit c buf L F) as (e & b' & E1). rewrite E1 in H. discriminate.
  - destruct (hash_cert_chains h r buf) as [ds'|e|q] eqn:E2; try discriminate.
    destruct (IH _ _ L E2) as [U (c & Hc)]. split; auto. exists c. right; auto.
Qed.

(** * Slots *)
Lemma slot_chain_map slots i c : slot_chain slots i = Some c <->
  nth_error (map (option_map fs_chain) slots) i = Some (Some c).
Proof.
  unfold slot_chain. rewrite nth_error_map. destruct (nth_error slots i) as [[s|]|]; simpl; split; congruence.
Qed.
Lemma mask_unique slots m m' : mask_of_slots slots m -> mask_of_slots slots m' -> m = m'.
Proof.
  intros [_ H1] [_ H2]. apply N.bits_inj. intros i. specialize (H1 (N.to_nat i)). specialize (H2 (N.to_nat i)).
  unfold slot_in_mask in *. rewrite N2Nat.id in *. destruct (N.testbit m i), (N.testbit m' i); intuition congruence.
Qed.
Lemma mask_ok {E} slots : length slots <= 8 ->
  exists mask, @create_slot_mask cfg E _ slots = Ok mask /\ mask_of_slots slots mask.
Proof.
  intros L. destruct (@C45_slot_mask cfg E _ slots L) as (m & H1 & H2 & H3). exists m. split; [auto|]. split; [auto|].
  intros i. rewrite H3. unfold slot_chain. destruct (nth_error slots i) as [[s|]|]; split; intros [x H]; eauto; discriminate.
Qed.
Lemma mask_ok_chains {E} slots : length slots <= 8 ->
  exists mask, @create_slot_mask cfg E _ (map (option_map fs_chain) slots) = Ok mask /\ mask_of_slots slots mask.
Proof.
  intros L. destruct (@C45_slot_mask cfg E _ (map (option_map fs_chain) slots)) as (m & H1 & H2 & H3); [now rewrite map_length|].
  exists m. split; [auto|]. split; [auto|]. intros i. rewrite H3. split; intros [x H]; exists x; now apply slot_chain_map.
Qed.

(** * Sizes *)
Lemma digest_size_of {E} h : sha2 h -> @get_digest_size cfg E h = digest_size (hash_len h).
Proof. intros [-> | [-> | ->]]; reflexivity. Qed.
Lemma sig_size_of {E} a n : sig_len a = Some n -> @get_signature_size cfg E a = signature_size n.
Proof.
  unfold sig_len, get_signature_size. unfold RSASSA_2048, RSAPSS_2048, RSASSA_3072, RSAPSS_3072, ECDSA_ECC_NIST_P256, RSASSA_4096,
    RSAPSS_4096, ECDSA_ECC_NIST_P384, ECDSA_ECC_NIST_P521.
  repeat match goal with |- context [if ?b then _ else _] => destruct b; [intros [= <-]; reflexivity|] end. discriminate.
Qed.
Lemma sig_size_inv {E} a n : @get_signature_size cfg E a = Ok n -> sig_len a = Some n /\ n <= MAX_SIGNATURE_SIZE.
Proof.
  unfold sig_len, get_signature_size. unfold RSASSA_2048, RSAPSS_2048, RSASSA_3072, RSAPSS_3072, ECDSA_ECC_NIST_P256, RSASSA_4096,
    RSAPSS_4096, ECDSA_ECC_NIST_P384, ECDSA_ECC_NIST_P521, signature_size.
  repeat match goal with |- context [if ?b then (if ?l <=? _ then _ else _) else _] =>
    destruct b; [destruct (Nat.leb_spec l MAX_SIGNATURE_SIZE); [intros [= <-]; auto|discriminate]|] end. discriminate.
Qed.

(** * Selecting the lowest offered algorithm *)
Lemma tz_lowest w p : (N.pos p < 2 ^ N.of_nat w)%N -> trailing_zeros w (N.pos p) < w /\
  N.testbit (N.pos p) (N.of_nat (pos_tz p)) = true /\
  forall j, (j < N.of_nat (pos_tz p))%N -> N.testbit (N.pos p) j = false.
Proof.
  intros Hw. simpl trailing_zeros.
  assert (B : N.testbit (N.pos p) (N.of_nat (pos_tz p)) = true /\
              forall j, (j < N.of_nat (pos_tz p))%N -> N.testbit (N.pos p) j = false).
  { clear. induction p as [p IH|p [IH1 IH2]|]; simpl pos_tz.
    - split; [reflexivity|intros; lia].
    - change (N.pos p~0) with (2 * N.pos p)%N. rewrite Nat2N.inj_succ. split.
      + rewrite N.testbit_even_succ by lia. auto.
      + intros j Hj. destruct (N.eq_dec j 0) as [->|Hz]; [reflexivity|].
        replace j with (N.succ (N.pred j)) by lia. rewrite N.testbit_even_succ by lia. apply IH2. lia.
    - split; [reflexivity|intros; lia]. }
  split; [|exact B]. destruct B as [B _]. destruct (Nat.lt_ge_cases (pos_tz p) w) as [|G]; [auto|exfalso].
  rewrite N.bits_above_log2 in B; [discriminate|]. pose proof (N.log2_lt_pow2 (N.pos p) (N.of_nat w)). lia.
Qed.
Lemma lowest_unique a c c' : lowest_of a c -> lowest_of a c' -> c = c'.
Proof.
  intros (i & H1 & H2 & ->) (j & H3 & H4 & ->). destruct (N.lt_trichotomy i j) as [L|[->|L]]; [|auto|].
  - rewrite (H4 _ L) in H1. discriminate.
  - rewrite (H2 _ L) in H3. discriminate.
Qed.
Lemma selected_unique a c c' : selected a c -> selected a c' -> c = c'.
Proof.
  intros [H|(O & -> & ->)] [H'|(O' & E' & ->)]; auto.
  - eapply lowest_unique; eauto.
  - subst. destruct H as (i & H & _). now rewrite N.bits_0 in H.
  - destruct H' as (i & H & _). now rewrite N.bits_0 in H.
Qed.
(** [select_lowest]: succeeds exactly with the selection; panics only on an empty offer. *)
Lemma select_spec {E} w all l a : all = mask_of l -> In 0%N l -> (forall i, In i l -> (i < N.of_nat w)%N) -> only_bits l a -> w <> 0 ->
  (exists c, @select_lowest cfg E w all a = Ok c /\ selected a c /\ one_bit_of l c) \/
  (exists p, @select_lowest cfg E w all a = Panic p) /\ a = 0%N /\ overflow_checks = true.
Proof.
  intros M Z B O W. pose proof (only_bits_bound l a _ B O) as Hw. unfold select_lowest. destruct a as [|p].
  - simpl trailing_zeros. rewrite Nat.ltb_irrefl. destruct overflow_checks eqn:OC; [right; simpl; eauto|left].
    simpl rbind. rewrite Nat.mod_same by auto. change (N.shiftl 1 (N.of_nat 0)) with 1%N.
    assert (from_bits all 1 = Some 1%N) as ->.
    { apply (from_bits_only all l 1 1 M). split; [auto|]. intros i Hi.
      change 1%N with (2 ^ 0)%N in Hi. rewrite N.pow2_bits_eqb in Hi. apply N.eqb_eq in Hi. now subst. }
    exists 1%N. split; [auto|]. split; [right; auto|]. exists 0%N. auto.
  - left. destruct (tz_lowest w p Hw) as (T1 & T2 & T3). destruct (Nat.ltb_spec (trailing_zeros w (N.pos p)) w); [|lia].
    simpl rbind. rewrite N.shiftl_1_l. simpl trailing_zeros.
    assert (from_bits all (2 ^ N.of_nat (pos_tz p)) = Some (2 ^ N.of_nat (pos_tz p))%N) as ->.
    { apply (from_bits_only all l _ _ M). split; [auto|]. intros i Hi. rewrite N.pow2_bits_eqb in Hi.
      apply N.eqb_eq in Hi. subst. apply O; auto. }
    eexists. split; [reflexivity|]. split; [left; eexists; eauto|]. eexists. split; [apply O; eauto|reflexivity].
Qed.
Lemma choose_one_spec {E} a : alg_struct_ok a ->
  (exists b, @choose_one cfg E a = Ok b /\ entry_selected a b /\ alg_one_bit b) \/
  (exists p, @choose_one cfg E a = Panic p) /\ offer_empty a /\ overflow_checks = true.
Proof.
  intros H. unfold alg_struct_ok in H. unfold offer_empty, entry_selected, alg_one_bit.
  destruct a as [s|s|s|s]; simpl in H |- *;
  [pose proof (@select_spec E 16 _ _ s Dhe_all_mask) as S|pose proof (@select_spec E 16 _ _ s Aead_all_mask) as S|
   pose proof (@select_spec E 16 _ _ s ReqBaseAsym_all_mask) as S|pose proof (@select_spec E 16 _ _ s KeySchedule_all_mask) as S];
  (destruct S as [(c & S1 & S2 & S3)|((p & S1) & S2 & S3)];
    [simpl; tauto|intros i Hi; simpl in Hi; lia|exact H|lia|left; rewrite S1; simpl; eauto 10|right; rewrite S1; simpl; eauto]).
Qed.

Lemma choose_loop_spec {E} todo : forall es done reqs rsps, 
  length es = todo -> Forall alg_struct_ok es -> skipn (length done) reqs = es ++ skipn (length done + todo) reqs ->
  length rsps = 4 -> length done + todo <= 4 -> rsps = done ++ repeat (Dhe 0) (4 - length done) ->
  (exists fs, @choose_loop cfg E todo (length done) reqs rsps = Ok (done ++ fs ++ repeat (Dhe 0) (4 - length done - todo)) /\
     Forall2 entry_selected es fs /\ Forall alg_one_bit fs) \/
  (exists p, @choose_loop cfg E todo (length done) reqs rsps = Panic p) /\ Exists offer_empty es /\ overflow_checks = true.
Proof.
  induction todo as [|n IH]; intros es done reqs rsps He Hok Hs Hr Hl Hd.
  - destruct es; [|discriminate]. left. exists []. simpl. rewrite Hd, Nat.sub_0_r. auto.
  - destruct es as [|a es]; [discriminate|]. simpl in He. injection He as He. inversion Hok as [|? ? Ha Hok']; subst n.
    cbn [choose_loop]. rewrite skipn_nth_error, Hs. cbn [app hd_error].
    destruct (@choose_one_spec E a Ha) as [(b & B1 & B2 & B3)|((p & B1) & B2 & B3)]; rewrite B1; cbn [rbind].
    2: { right. split; [eauto|]. split; [left; auto|auto]. }
    destruct (Nat.ltb_spec (length done) (length rsps)); [|lia].
    assert (Hn : S (length done) = length (done ++ [b])) by (rewrite app_length; simpl; lia). rewrite Hn.
    destruct (IH es (done ++ [b]) reqs (upd rsps (length done) b)) as [(fs & F1 & F2 & F3)|((p & F1) & F2 & F3)]; auto.
    + rewrite <- Hn. replace (S (length done)) with (length done + 1) by lia. rewrite <- skipn_skipn', Hs. simpl.
      replace (length done + 1 + length es) with (length done + S (length es)) by lia. auto.
    + now rewrite upd_length.
    + rewrite app_length; simpl; lia.
    + subst rsps. rewrite upd_split by lia. rewrite firstn_app_exact by auto. rewrite <- app_assoc. cbn [app]. f_equal. f_equal.
      rewrite <- (Nat.add_1_r (length done)), <- skipn_skipn'. rewrite skipn_app_exact by auto. rewrite app_length. simpl length.
      replace (4 - length done) with (S (4 - (length done + 1))) by lia. reflexivity.
    + left. exists (b :: fs). rewrite F1. split; [|split; constructor; auto].
      rewrite <- app_assoc, app_length. cbn [app length].
      now replace (4 - (length done + 1) - length es) with (4 - length done - S (length es)) by lia.
    + right. rewrite F1. split; [eauto|]. split; [right; auto|auto].
Qed.

(** Some algorithm set of the request is empty. *)
Lemma choose_spec {E} body na : negotiate_fmt body na ->
  exists es, na_num_requests na = N.of_nat (length es) /\ alg_array (na_requests na) es /\
  ((exists al fs, @choose_algorithms cfg E na = Ok al /\ algorithms_chosen na al es fs /\
      one_bit_of hash_bits (al_base_hash al) /\ one_bit_of asym_bits (al_base_asym al) /\ Forall alg_one_bit fs) \/
   (exists p, @choose_algorithms cfg E na = Panic p) /\ empty_offer na es /\ overflow_checks = true).
Proof.
  intros (len & ea & eh & t & H1 & H2 & H3 & H4 & H5 & H6 & H7 & H8 & H9 & H10).
  exists (map fst t). rewrite map_length. split; [auto|]. split; [auto|].
  unfold choose_algorithms, empty_offer.
  destruct (@select_spec E 32 _ _ (na_base_hash_algo na) BaseHashAlgo_all_mask) as [(h & A1 & A2 & A3)|((p & A1) & A2 & A3)]; auto;
    try (simpl; tauto); try (intros i Hi; simpl in Hi; lia); rewrite A1; cbn [rbind].
  2: { right. split; [eauto|auto]. }
  destruct (@select_spec E 32 _ _ (na_base_asym_algo na) BaseAsymAlgo_all_mask) as [(y & B1 & B2 & B3)|((p & B1) & B2 & B3)]; auto;
    try (simpl; tauto); try (intros i Hi; simpl in Hi; lia); rewrite B1; cbn [rbind].
  2: { right. split; [eauto|auto]. }
  destruct H9 as [L9 R9]. rewrite map_length in L9, R9.
  destruct (@choose_loop_spec E (length t) (map fst t) [] (na_requests na) (al_responses algorithms_default))
    as [(fs & F1 & F2 & F3)|((p & F1) & F2 & F3)].
  - apply map_length.
  - apply Forall_forall. intros a Ha. apply in_map_iff in Ha as (q & <- & Hq). rewrite Forall_forall in H4. apply H4; auto.
  - cbn [length skipn Nat.add]. rewrite R9 at 1. f_equal. rewrite R9. symmetry. apply skipn_app_exact. now rewrite map_length.
  - reflexivity.
  - exact L9.
  - reflexivity.
  - left. rewrite H8, Nat2N.id. cbn [length] in F1. rewrite F1. cbn [rbind app]. rewrite Nat.sub_0_r.
    pose proof (Forall2_len _ _ _ F2) as LF. rewrite map_length in LF.
    eexists _, fs. split; [reflexivity|]. unfold algorithms_chosen; cbn [al_num_responses al_responses al_base_hash al_base_asym al_measurement_spec al_measurement_hash].
    split; [|auto]. split; [now rewrite map_length|]. split; [split; [now rewrite map_length|rewrite map_length; exact R9]|].
    split; [congruence|]. split; [split; [lia|now rewrite LF]|]. auto 10.
  - right. rewrite H8, Nat2N.id. cbn [length] in F1. rewrite F1. cbn [rbind]. split; [eauto|auto].
Qed.
Lemma chosen_unique na al al' es fs es' fs' : algorithms_chosen na al es fs -> algorithms_chosen na al' es' fs' ->
  es = es' /\ fs = fs' /\ al = al'.
Proof.
  intros (A1 & A2 & A3 & A4 & A5 & A6 & A7 & A8 & A9) (B1 & B2 & B3 & B4 & B5 & B6 & B7 & B8 & B9).
  assert (es = es') as <-.
  { destruct A2 as [L1 E1], B2 as [L2 E2]. assert (L : length es = length es') by lia.
    rewrite E1 in E2. apply (f_equal (firstn (length es))) in E2. rewrite firstn_app_exact in E2 by auto.
    rewrite L in E2. now rewrite firstn_app_exact in E2 by auto. }
  assert (fs = fs') as <-.
  { clear -A5 B5. revert fs' B5. induction A5 as [|a b es fs [T1 S1] _ IH]; intros fs' B5; inversion B5 as [|? b' ? fs2 [T2 S2] B5']; subst; auto.
    f_equal; [|apply IH; auto]. pose proof (selected_unique _ _ _ S1 S2) as E1.
    destruct a, b, b'; simpl in *; congruence. }
  split; [auto|]. split; [auto|]. destruct A4 as [_ A4], B4 as [_ B4].
  pose proof (selected_unique _ _ _ A7 B7). pose proof (selected_unique _ _ _ A9 B9).
  destruct al, al'; simpl in *. congruence.
Qed.
End Parts.
