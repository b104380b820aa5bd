(** C44, C45, C48, C49: configuration, slot masks, buffer equality, code tables. *)
From Verif Require Import Base BaseLemmas Config ConfigBuild Encoding MsgCommon MsgCapabilities MsgAlgorithms MsgCertificates
     MsgChallenge MsgMeasurements Transcript Crypto Responder Requester Bufs SpecWire FlagLemmas Sample PropTools PropTranscript
     ReaderLogic ReaderLoops.

(** * C45 *)
Section C45.
Context {cfg : Config}.
Lemma slot_mask_from {E A} (slots : list (option A)) : forall i bits, i + length slots <= 8 -> (bits < 256)%N ->
  exists mask, create_slot_mask_from i slots bits = @Ok E N mask /\ (mask < 256)%N /\
    forall j, N.testbit mask j = true <->
      N.testbit bits j = true \/ exists k x, nth_error slots k = Some (Some x) /\ j = N.of_nat (i + k).
Proof.
  induction slots as [|[x|] r IH]; intros i bits Hl Hb; simpl in Hl |- *.
  - exists bits. split; [auto|]. split; [auto|]. intros j. split; auto. intros [H|([|k] & x & [=] & _)]; auto.
  - unfold shl8, shamt8. destruct (Nat.ltb_spec i 8); [|lia]. simpl rmap. unfold rbind.
    assert (E1 : (N.shiftl 1 (N.of_nat i) mod 256 = 2 ^ N.of_nat i)%N).
    { rewrite N.shiftl_1_l. apply N.mod_small. change 256%N with (2 ^ 8)%N. apply N.pow_lt_mono_r; lia. }
    rewrite E1.
    destruct (IH (S i) (N.lor bits (2 ^ N.of_nat i))%N) as (mask & H1 & H2 & H3); [lia| |].
    { destruct (N.eq_dec (N.lor bits (2 ^ N.of_nat i)) 0) as [->|Hz]; [reflexivity|].
      change 256%N with (2 ^ 8)%N. apply N.log2_lt_pow2; [lia|]. rewrite N.log2_lor, N.log2_pow2 by lia.
      apply N.max_lub_lt; [|lia]. destruct (N.eq_dec bits 0) as [->|Hz']; [reflexivity|].
      apply N.log2_lt_pow2; [lia|exact Hb]. }
    exists mask. split; [auto|]. split; [auto|]. intros j. rewrite H3, N.lor_spec, orb_true_iff, N.pow2_bits_eqb, N.eqb_eq.
    split.
    + intros [[H4|H4]|(k & y & H4 & H5)]; [auto| |].
      * right. exists 0, x. split; [reflexivity|lia].
      * right. exists (S k), y. split; [exact H4|lia].
    + intros [H4|([|k] & y & H4 & H5)]; [auto| |].
      * left. right. lia.
      * right. exists k, y. split; [exact H4|lia].
  - destruct (IH (S i) bits) as (mask & H1 & H2 & H3); [lia|auto|].
    exists mask. split; [auto|]. split; [auto|]. intros j. rewrite H3. split.
    + intros [H4|(k & y & H4 & H5)]; [auto|]. right. exists (S k), y. split; [exact H4|lia].
    + intros [H4|([|k] & y & H4 & H5)]; [auto|discriminate|]. right. exists k, y. split; [exact H4|lia].
Qed.
(** For every NUM_SLOTS the build accepts (at most 8) and every occupancy. *)
Theorem C45_slot_mask {E A} (slots : list (option A)) : length slots <= 8 ->
  exists mask, create_slot_mask slots = @Ok E N mask /\ is_byte mask /\
    forall i, slot_in_mask mask i = true <-> exists x, nth_error slots i = Some (Some x).
Proof.
  intros Hl. destruct (@slot_mask_from E A slots 0 0%N) as (mask & H1 & H2 & H3); [simpl; lia|lia|].
  exists mask. split; [exact H1|]. split; [exact H2|]. intros i. unfold slot_in_mask. rewrite H3. rewrite N.bits_0. split.
  - intros [H|(k & x & H & E1)]; [discriminate|]. exists x. now replace i with k by lia.
  - intros (x & H). right. exists i, x. auto.
Qed.
End C45.
Example C45_nonvacuous : @create_slot_mask sample_cfg unit nat [Some 1; None; Some 2; None; Some 3] = Ok 21%N.
Proof. reflexivity. Qed.

(** * C49 *)
(** [to] and [of] are inverse: every value comes back, and every byte accepted
    is the code of the value it is read as (so all other bytes are refused). *)
Definition code_table {A} (to : A -> N) (of : N -> option A) : Prop :=
  (forall x, is_byte (to x) /\ of (to x) = Some x) /\ (forall b x, of b = Some x -> b = to x).
Ltac table := split; [intros []; split; try reflexivity; red; simpl; lia|];
  intros b x H; repeat (destruct b as [|b]; try discriminate H; try (injection H as <-; reflexivity);
     repeat (destruct b as [b|b|]; try discriminate H; try (injection H as <-; reflexivity))).
Theorem C49_registry_codes : code_table registry_to_u8 registry_of_u8 /\ forall v, registry_to_u8 v = registry_code v.
Proof. split; [table|intros []; reflexivity]. Qed.
Theorem C49_hash_type_codes : code_table mht_to_u8 mht_of_u8 /\ forall t, mht_to_u8 t = hash_type_code t.
Proof. split; [table|intros []; reflexivity]. Qed.
Theorem C49_value_type_codes : code_table vt_to_u8 vt_of_u8 /\ forall t, vt_to_u8 t = value_type_code t.
Proof. split; [table|intros []; reflexivity]. Qed.
Theorem C49_representation_codes : code_table repr_to_u8 repr_of_u8.
Proof. table. Qed.
Theorem C49_content_changed_codes : code_table content_changed_code cc_of_u8.
Proof. table. Qed.
(** Indexes: every byte is an index, every valid index comes back, invalid
    ImplementationDefined/Reserved payloads are refused. *)
Theorem C49_index_codes :
  (forall i, index_ok i -> mi_to_u8 i = Ok (index_code i) /\ is_byte (index_code i) /\ mi_of_u8 (index_code i) = i) /\
  (forall i, ~ index_ok i -> exists e, mi_to_u8 i = Err e) /\
  (forall b, is_byte b -> index_ok (mi_of_u8 b) /\ index_code (mi_of_u8 b) = b).
Proof.
  split; [|split].
  - intros []; simpl; intros H; unfold is_byte.
    + repeat split; lia.
    + repeat split; lia.
    + destruct (N.ltb_spec i 1); [lia|]. destruct (N.ltb_spec 0xEF i); [lia|]. split; [auto|]. split; [lia|].
      unfold mi_of_u8. repeat (match goal with |- context [N.eqb ?a ?b] => destruct (N.eqb_spec a b); [lia|] end).
      destruct (N.leb_spec 1 i); [|lia]. destruct (N.leb_spec i 0xEF); [|lia]. reflexivity.
    + destruct (N.ltb_spec i 0xF0); [lia|]. destruct (N.ltb_spec 0xFC i); [lia|]. split; [auto|]. split; [lia|].
      unfold mi_of_u8. repeat (match goal with |- context [N.eqb i ?b] => destruct (N.eqb_spec i b); [lia|] end).
      destruct (N.leb_spec 1 i); [|lia]. destruct (N.leb_spec i 0xEF); [lia|].
      destruct (N.leb_spec 0xF0 i); [|lia]. destruct (N.leb_spec i 0xFC); [|lia]. reflexivity.
    + repeat split; lia.
    + repeat split; lia.
  - intros []; simpl; intros H; try (destruct H; exact I).
    + destruct (N.ltb_spec i 1); simpl; [eauto|]. destruct (N.ltb_spec 0xEF i); simpl; [eauto|]. destruct H; lia.
    + destruct (N.ltb_spec i 0xF0); simpl; [eauto|]. destruct (N.ltb_spec 0xFC i); simpl; [eauto|]. destruct H; lia.
  - intros b Hb. unfold is_byte in Hb. unfold mi_of_u8.
    destruct (N.eqb_spec b 0); [subst; split; [exact I|reflexivity]|].
    destruct (N.eqb_spec b 0xFF); [subst; split; [exact I|reflexivity]|].
    destruct (N.leb_spec 1 b); destruct (N.leb_spec b 0xEF); simpl; try (split; [lia|reflexivity]);
    destruct (N.leb_spec 0xF0 b); destruct (N.leb_spec b 0xFC); simpl; try (split; [lia|reflexivity]); try lia;
    destruct (N.eqb_spec b 0xFD); simpl; try (split; [exact I|lia]).
Qed.

(** Names: distinct names denote distinct single defined bits. *)
Definition name_table (parse : string -> option N) (defined : list N) : Prop :=
  (forall s v, parse s = Some v -> one_bit_of defined v) /\
  (forall s t v, parse s = Some v -> parse t = Some v -> s = t).
Lemma str_lookup_in {A} s (t : list (string * A)) v : str_lookup s t = Some v -> In (s, v) t.
Proof.
  induction t as [|[k x] t IH]; simpl; [discriminate|].
  destruct (String.eqb_spec s k) as [->|]; [intros [= ->]; auto|auto].
Qed.
Lemma snd_inj {A B} (t : list (A * B)) a b v : NoDup (map snd t) -> In (a, v) t -> In (b, v) t -> a = b.
Proof.
  induction t as [|[x y] t IH]; simpl; [tauto|]. intros HN. inversion HN as [|? ? Hni HN']; subst.
  intros [[= -> ->]|H1] [[= ->]|H2]; auto.
  - destruct Hni. apply in_map_iff. exists (b, v); auto.
  - subst y. destruct Hni. apply in_map_iff. exists (a, v); auto.
Qed.
Lemma name_table_of (t : list (string * N)) l : NoDup (map snd t) ->
  Forall (fun p => one_bit_of l (snd p)) t -> name_table (fun s => str_lookup s t) l.
Proof.
  intros HN HF. split.
  - intros s v H. apply str_lookup_in in H. rewrite Forall_forall in HF. exact (HF _ H).
  - intros a b v H1 H2. apply str_lookup_in in H1, H2. eapply snd_inj; eauto.
Qed.
Ltac nodupN := repeat (apply NoDup_cons; [simpl; intuition discriminate|]); apply NoDup_nil.
Ltac onebit i := exists i; split; [simpl; tauto|reflexivity].
Ltac bitof := match goal with |- one_bit_of _ (snd (_, ?v)) => let i := eval vm_compute in (N.log2 v) in onebit i
   | |- one_bit_of _ ?v => let i := eval vm_compute in (N.log2 v) in onebit i end.
Theorem C49_requester_flag_names : name_table ReqFlags_from_str req_flag_bits.
Proof. apply name_table_of; [simpl; nodupN|]. repeat (apply Forall_cons; [bitof|]); constructor. Qed.
Theorem C49_responder_flag_names : name_table RspFlags_from_str rsp_flag_bits.
Proof. apply name_table_of; [simpl; nodupN|]. repeat (apply Forall_cons; [bitof|]); constructor. Qed.
Theorem C49_asym_names : name_table BaseAsymAlgo_from_str asym_bits.
Proof. apply name_table_of; [simpl; nodupN|]. repeat (apply Forall_cons; [bitof|]); constructor. Qed.
Theorem C49_hash_names : name_table BaseHashAlgo_from_str hash_bits.
Proof. apply name_table_of; [simpl; nodupN|]. repeat (apply Forall_cons; [bitof|]); constructor. Qed.
(** The algorithm constants of each structure are distinct single defined bits. *)
Definition distinct_bits (consts defined : list N) : Prop := NoDup consts /\ Forall (one_bit_of defined) consts.
Ltac dbits := split; [nodupN|repeat (apply Forall_cons; [bitof|]); constructor].
Theorem C49_algorithm_constants :
  distinct_bits [RSASSA_2048; RSAPSS_2048; RSASSA_3072; RSAPSS_3072; ECDSA_ECC_NIST_P256; RSASSA_4096; RSAPSS_4096;
                 ECDSA_ECC_NIST_P384; ECDSA_ECC_NIST_P521] asym_bits /\
  distinct_bits [SHA_256; SHA_384; SHA_512; SHA3_256; SHA3_384; SHA3_512] hash_bits /\
  distinct_bits [FFDHE_2048; FFDHE_3072; FFDHE_4096; SECP_256_R1; SECP_384_R1; SECP_521_R1] (alg_struct_bits (Dhe 0)) /\
  distinct_bits [AES_128_GCM; AES_256_GCM; CHACHA20_POLY1305] (alg_struct_bits (Aead 0)) /\
  distinct_bits [KeySchedule_SPDM] (alg_struct_bits (KeySchedule 0)).
Proof.
  refine (conj _ (conj _ (conj _ (conj _ _)))); dbits.
Qed.
(** The bits which the SPDM 1.1 specification (DSP0274) assigns to each name. *)
Definition spdm_requester_flags : list (string * N) :=
  [("CERT_CAP", 1); ("CHAL_CAP", 2); ("ENCRYPT_CAP", 6); ("MAC_CAP", 7); ("MUT_AUTH_CAP", 8); ("KEY_EX_CAP", 9); ("PSK_CAP", 10);
   ("ENCAP_CAP", 12); ("HBEAT_CAP", 13); ("KEY_UPD_CAP", 14); ("HANDSHAKE_IN_THE_CLEAR_CAP", 15); ("PUB_KEY_ID_CAP", 16)]%string%N.
Definition spdm_responder_flags : list (string * N) :=
  [("CACHE_CAP", 0); ("CERT_CAP", 1); ("CHAL_CAP", 2); ("MEAS_FRESH_CAP", 5); ("ENCRYPT_CAP", 6); ("MAC_CAP", 7); ("MUT_AUTH_CAP", 8);
   ("KEY_EX_CAP", 9); ("PSK_CAP", 10); ("ENCAP_CAP", 12); ("HBEAT_CAP", 13); ("KEY_UPD_CAP", 14); ("HANDSHAKE_IN_THE_CLEAR_CAP", 15);
   ("PUB_KEY_ID_CAP", 16)]%string%N.
Definition spdm_asym_algorithms : list (string * N) :=
  [("RSASSA_2048", 0); ("RSAPSS_2048", 1); ("RSASSA_3072", 2); ("RSAPSS_3072", 3); ("ECDSA_ECC_NIST_P256", 4); ("RSASSA_4096", 5);
   ("RSAPSS_4096", 6); ("ECDSA_ECC_NIST_P384", 7); ("ECDSA_ECC_NIST_P521", 8)]%string%N.
Definition spdm_hash_algorithms : list (string * N) :=
  [("SHA_256", 0); ("SHA_384", 1); ("SHA_512", 2); ("SHA3_256", 3); ("SHA3_384", 4); ("SHA3_512", 5)]%string%N.
(** Exactly the names of the table are accepted, each as its bit. *)
Definition names_are (parse : string -> option N) (spdm : list (string * N)) : Prop :=
  forall s v, parse s = Some v <-> exists i, In (s, i) spdm /\ v = (2 ^ i)%N.
Lemma lookup_complete {A} (t : list (string * A)) s v : NoDup (map fst t) -> In (s, v) t -> str_lookup s t = Some v.
Proof.
  induction t as [|[k x] t IH]; cbn [map fst In str_lookup]; [tauto|]. intros ND I. inversion ND as [|? ? N1 N2]; subst.
  destruct I as [[= -> ->]|I]; [now rewrite String.eqb_refl|]. destruct (String.eqb_spec s k) as [->|]; [|auto].
  exfalso. apply N1. apply in_map_iff. now exists (k, v).
Qed.
Lemma names_are_of (t spdm : list (string * N)) : NoDup (map fst t) -> t = map (fun p => (fst p, 2 ^ snd p)%N) spdm ->
  names_are (fun s => str_lookup s t) spdm.
Proof.
  intros ND -> s v. split.
  - intros H. apply str_lookup_in in H. apply in_map_iff in H as ([k i] & [= <- <-] & I). eauto.
  - intros (i & I & ->). apply lookup_complete; [exact ND|]. apply in_map_iff. now exists (s, i).
Qed.
Theorem C49_names_denote_spdm_bits :
  names_are ReqFlags_from_str spdm_requester_flags /\ names_are RspFlags_from_str spdm_responder_flags /\
  names_are BaseAsymAlgo_from_str spdm_asym_algorithms /\ names_are BaseHashAlgo_from_str spdm_hash_algorithms.
Proof. refine (conj _ (conj _ (conj _ _))); (apply names_are_of; [cbn [map fst ReqFlags_table RspFlags_table BaseAsymAlgo_table BaseHashAlgo_table]; nodupN|reflexivity]). Qed.
(** The public constants which have no name, or are named in the API only. *)
Definition spdm_bit (i v : N) : Prop := v = (2 ^ i)%N.
Theorem C49_constants_are_spdm_bits :
  (* capability flags *)
  spdm_bit 1 ReqFlags_CERT_CAP /\ spdm_bit 2 ReqFlags_CHAL_CAP /\ spdm_bit 6 ReqFlags_ENCRYPT_CAP /\ spdm_bit 7 ReqFlags_MAC_CAP /\
  spdm_bit 8 ReqFlags_MUT_AUTH_CAP /\ spdm_bit 9 ReqFlags_KEY_EX_CAP /\ spdm_bit 10 ReqFlags_PSK_CAP /\ ReqFlags_PSK_CAP_MASK = (2 ^ 10 + 2 ^ 11)%N /\
  spdm_bit 12 ReqFlags_ENCAP_CAP /\ spdm_bit 13 ReqFlags_HBEAT_CAP /\ spdm_bit 14 ReqFlags_KEY_UPD_CAP /\
  spdm_bit 15 ReqFlags_HANDSHAKE_IN_THE_CLEAR_CAP /\ spdm_bit 16 ReqFlags_PUB_KEY_ID_CAP /\
  spdm_bit 0 RspFlags_CACHE_CAP /\ spdm_bit 1 RspFlags_CERT_CAP /\ spdm_bit 2 RspFlags_CHAL_CAP /\ spdm_bit 3 RspFlags_MEAS_CAP_NO_SIG /\
  spdm_bit 4 RspFlags_MEAS_CAP_SIG /\ spdm_bit 5 RspFlags_MEAS_FRESH_CAP /\ spdm_bit 6 RspFlags_ENCRYPT_CAP /\ spdm_bit 7 RspFlags_MAC_CAP /\
  spdm_bit 8 RspFlags_MUT_AUTH_CAP /\ spdm_bit 9 RspFlags_KEY_EX_CAP /\ spdm_bit 10 RspFlags_PSK_CAP /\ spdm_bit 11 RspFlags_PSX_CAP_WITH_CONTEXT /\
  spdm_bit 12 RspFlags_ENCAP_CAP /\ spdm_bit 13 RspFlags_HBEAT_CAP /\ spdm_bit 14 RspFlags_KEY_UPD_CAP /\
  spdm_bit 15 RspFlags_HANDSHAKE_IN_THE_CLEAR_CAP /\ spdm_bit 16 RspFlags_PUB_KEY_ID_CAP /\
  (* DHE groups, AEAD ciphers, key schedules, measurement specification *)
  spdm_bit 0 FFDHE_2048 /\ spdm_bit 1 FFDHE_3072 /\ spdm_bit 2 FFDHE_4096 /\ spdm_bit 3 SECP_256_R1 /\ spdm_bit 4 SECP_384_R1 /\ spdm_bit 5 SECP_521_R1 /\
  spdm_bit 0 AES_128_GCM /\ spdm_bit 1 AES_256_GCM /\ spdm_bit 2 CHACHA20_POLY1305 /\ spdm_bit 0 KeySchedule_SPDM /\ spdm_bit 0 MeasurementSpec_DMTF /\
  (* signature and hash algorithms *)
  spdm_bit 0 RSASSA_2048 /\ spdm_bit 1 RSAPSS_2048 /\ spdm_bit 2 RSASSA_3072 /\ spdm_bit 3 RSAPSS_3072 /\ spdm_bit 4 ECDSA_ECC_NIST_P256 /\
  spdm_bit 5 RSASSA_4096 /\ spdm_bit 6 RSAPSS_4096 /\ spdm_bit 7 ECDSA_ECC_NIST_P384 /\ spdm_bit 8 ECDSA_ECC_NIST_P521 /\
  spdm_bit 0 SHA_256 /\ spdm_bit 1 SHA_384 /\ spdm_bit 2 SHA_512 /\ spdm_bit 3 SHA3_256 /\ spdm_bit 4 SHA3_384 /\ spdm_bit 5 SHA3_512.
Proof. unfold spdm_bit. repeat (split; [reflexivity|]). reflexivity. Qed.
Example C49_nonvacuous : registry_of_u8 4 = Some Iana /\ registry_of_u8 9 = None /\ ~ index_ok (ImplementationDefined 0).
Proof. split; [reflexivity|]. split; [reflexivity|]. simpl; lia. Qed.

(** The flags of a device mode measurement, which no code uses yet, are distinct
    bits; the last one is bit 5, where DSP0274 1.2 has bit 4. *)
Theorem C49_mode_bits :
  spdm_bit 0 OpMode_MANUFACTURING /\ spdm_bit 1 OpMode_VALIDATION /\ spdm_bit 2 OpMode_NORMAL /\ spdm_bit 3 OpMode_RECOVERY /\
  spdm_bit 4 OpMode_RMA /\ spdm_bit 5 OpMode_DECOMMISSIONED /\
  spdm_bit 0 DevMode_NON_INVASIVE_DEBUG /\ spdm_bit 1 DevMode_INVASIVE_DEBUG /\ spdm_bit 2 DevMode_NON_INVASIVE_DEBUG_RESET_CYCLE /\
  spdm_bit 3 DevMode_INVASIVE_DEBUG_RESET_CYCLE /\ spdm_bit 5 DevMode_INVASIVE_DEBUG_AT_LEAST_ONCE.
Proof. unfold spdm_bit. repeat split. Qed.

(** * C44 *)
Section C44.
Context {cr : Crypto}.
Lemma check_caps_ok l : check_caps l = Ok tt -> forall s, In s l -> In s allowed_caps.
Proof.
  induction l as [|c r IH]; cbn [check_caps In]; [tauto|]. destruct (existsb (String.eqb c) allowed_caps) eqn:E; [|discriminate].
  intros H s [<-|Hs]; [|auto]. apply existsb_exists in E as (x & Hx & Ex). apply String.eqb_eq in Ex. now subst.
Qed.
Lemma sig_algos_ok l n : max_signature_size l = Ok n -> n = 64 /\ forall s, In s l -> s = "ECDSA_ECC_NIST_P256"%string.
Proof.
  induction l as [|c r IH]; simpl; [intros [= <-]; tauto|].
  destruct (String.eqb_spec c "ECDSA_ECC_NIST_P256"); [|discriminate].
  intros H. destruct (IH H) as [H1 H2]. split; [auto|]. intros s [<-|Hs]; auto.
Qed.
Lemma flags_ok {E} parse (e : E) l : forall flags, (forall s, In s l -> exists v, parse s = Some v) ->
  exists f, flags_of_strings parse e l flags = Ok f /\
    forall i, N.testbit f i = true <-> N.testbit flags i = true \/ exists s v, In s l /\ parse s = Some v /\ N.testbit v i = true.
Proof.
  induction l as [|c r IH]; intros flags H; simpl.
  - exists flags. split; [auto|]. intros i. split; [auto|]. intros [?|(s & v & [] & _)]; auto.
  - destruct (H c (or_introl eq_refl)) as (v & Hv). rewrite Hv.
    destruct (IH (N.lor flags v)) as (f & H1 & H2); [intros; apply H; simpl; auto|].
    exists f. split; [auto|]. intros i. rewrite H2, N.lor_spec, orb_true_iff. split.
    + intros [[?|?]|(s & w & ? & ? & ?)]; [auto|right; exists c, v; auto|right; exists s, w; auto].
    + intros [?|(s & w & [->|?] & ? & ?)]; [auto| |right; exists s, w; auto].
      left; right. replace v with w by congruence. auto.
Qed.
Lemma allowed_parse s : In s allowed_caps ->
  (exists v, ReqFlags_from_str s = Some v) /\ (exists v, RspFlags_from_str s = Some v).
Proof. simpl. intros H. decompose [or] H; try contradiction; subst; split; eexists; vm_compute; reflexivity. Qed.

Theorem C44_accepted_config_never_fails ring oc rnd c cfg : gen_config ring oc rnd c = Ok cfg ->
  1 <= NUM_SLOTS <= 8 /\
  (forall s, In s CAPABILITIES -> (exists v, ReqFlags_from_str s = Some v) /\ (exists v, RspFlags_from_str s = Some v)) /\
  (forall s, In s SIGNING_ALGOS -> exists v, BaseAsymAlgo_from_str s = Some v) /\
  (exists m, config_to_get_capabilities_msg = Ok m /\ flags_named ReqFlags_from_str (sc_capabilities c) (gc_flags m)) /\
  (exists m, config_to_capabilities_msg = Ok m /\ flags_named RspFlags_from_str (sc_capabilities c) (cap_flags m)) /\
  (exists m, config_to_negotiate_algorithms_msg = Ok m /\
             flags_named BaseAsymAlgo_from_str (sc_asymmetric_signing c) (na_base_asym_algo m)) /\
  (ring = false -> CAPABILITIES = []).
Proof.
  unfold gen_config. intros H.
  destruct (max_signature_size _) as [ms|e|p] eqn:E1; try discriminate. simpl in H.
  destruct (cert_chains_validate c) as [[]|e|p] eqn:E2; try discriminate. simpl in H.
  destruct (validate_capabilities ring _) as [[]|e|p] eqn:E3; try discriminate. simpl in H.
  injection H as <-. cbn [NUM_SLOTS CAPABILITIES SIGNING_ALGOS].
  assert (HC : forall s, In s (sc_capabilities c) -> In s allowed_caps).
  { unfold validate_capabilities in E3. destruct (_ && _); [discriminate|]. now apply check_caps_ok. }
  destruct (sig_algos_ok _ _ E1) as [_ HS].
  assert (HR : ring = false -> sc_capabilities c = []).
  { intros ->. unfold validate_capabilities in E3. simpl in E3. destruct (sc_capabilities c); [auto|discriminate]. }
  refine (conj _ (conj _ (conj _ (conj _ (conj _ (conj _ HR)))))).
  - unfold cert_chains_validate in E2. destruct (sc_num_slots c <? 1) eqn:A1; simpl in E2; [discriminate|].
    destruct (8 <? sc_num_slots c) eqn:A2; [discriminate|]. lia.
  - intros s Hs. apply allowed_parse; auto.
  - intros s Hs. rewrite (HS s Hs). eexists. reflexivity.
  - unfold config_to_get_capabilities_msg. cbn [CAPABILITIES].
    destruct (flags_ok ReqFlags_from_str ReqParseCapability (sc_capabilities c) 0) as (f & F1 & F2).
    { intros s Hs. apply allowed_parse; auto. }
    rewrite F1. eexists. split; [reflexivity|]. intros i. simpl gc_flags. rewrite F2, N.bits_0. intuition discriminate.
  - unfold config_to_capabilities_msg. cbn [CAPABILITIES].
    destruct (flags_ok RspFlags_from_str RspParseCapability (sc_capabilities c) 0) as (f & F1 & F2).
    { intros s Hs. apply allowed_parse; auto. }
    rewrite F1. eexists. split; [reflexivity|]. intros i. simpl cap_flags. rewrite F2, N.bits_0. intuition discriminate.
  - unfold config_to_negotiate_algorithms_msg. cbn [SIGNING_ALGOS].
    destruct (flags_ok BaseAsymAlgo_from_str ReqParseBaseAsymAlgo (sc_asymmetric_signing c) 0) as (f & F1 & F2).
    { intros s Hs. rewrite (HS s Hs). eexists; reflexivity. }
    rewrite F1. eexists. split; [reflexivity|]. intros i. simpl na_base_asym_algo. rewrite F2, N.bits_0. intuition discriminate.
Qed.
(** What the build refuses. *)
Theorem C44_refused ring oc rnd c cfg : gen_config ring oc rnd c = Ok cfg ->
  (N.of_nat (sc_buf_size c) <= 65536)%N /\ sc_max_depth c <= 24 /\ @MAX_SIGNATURE_SIZE cfg = 64.
Proof.
  unfold gen_config. intros H.
  destruct (max_signature_size _) as [ms|e|p] eqn:E1; try discriminate. simpl in H.
  destruct (cert_chains_validate c) as [[]|e|p] eqn:E2; try discriminate. simpl in H.
  destruct (validate_capabilities ring _) as [[]|e|p] eqn:E3; try discriminate. simpl in H. injection H as <-.
  destruct (sig_algos_ok _ _ E1) as [-> _]. unfold cert_chains_validate in E2.
  destruct (_ || _); [discriminate|]. destruct (N.ltb_spec 65536 (N.of_nat (sc_buf_size c))); [discriminate|].
  destruct (Nat.ltb_spec 24 (sc_max_depth c)); [discriminate|]. auto.
Qed.
End C44.
Definition sample_toml : SpdmConfig :=
  mkSpdmConfig 5 1024 4 4096 (CAPABILITIES (Config := sample_cfg)) 64 (SIGNING_ALGOS (Config := sample_cfg)) 8 1024 2 16.
Example C44_nonvacuous : gen_config true true true sample_toml = Ok sample_cfg.
Proof. reflexivity. Qed.

(** * C48 *)
Section C48.
Context {cfg : Config}.
(** An array of the capacity, the used part within it. *)
Definition sb_wf (cap : nat) (b : SizedBuf) : Prop := sb_size b <= cap /\ length (sb_buf b) = cap.
Theorem C48_sized_buf_constructors cap :
  (forall size, size <= cap -> sb_wf cap (sb_new cap size) /\ sb_as_ref (sb_new cap size) = repeat 0%N size) /\
  (forall data, (length data <= cap -> exists b, sb_try_from cap data = Some b /\ sb_wf cap b /\ sb_as_ref b = data) /\
                (cap < length data -> sb_try_from cap data = None)) /\
  (forall size r, size <= cap ->
     match sb_read cap size r, digest_read size r with
     | (Ok b, r1), (Ok d, r2) => sb_wf cap b /\ sb_as_ref b = d /\ r1 = r2
     | (Err e1, r1), (Err e2, r2) => e1 = e2 /\ r1 = r2
     | (Panic p1, _), (Panic p2, _) => p1 = p2
     | _, _ => False
     end).
Proof.
  split; [|split].
  - intros size H. unfold sb_wf, sb_as_ref; simpl. rewrite repeat_length. split; [lia|].
    replace cap with (size + (cap - size)) by lia. rewrite repeat_app. apply firstn_app_exact. now rewrite repeat_length.
  - intros data. unfold sb_try_from. split; intros H.
    + destruct (Nat.leb_spec (length data) cap); [|lia]. eexists. split; [reflexivity|].
      unfold sb_wf, sb_as_ref; simpl. rewrite app_length, skipn_length, repeat_length. split; [lia|]. now apply firstn_app_exact.
    + destruct (Nat.leb_spec (length data) cap); [lia|auto].
  - intros size r Hs. unfold sb_read, digest_read, bind. destruct (get_slice size size r) as [[d|e|p] r'] eqn:E; auto.
    simpl. assert (L : length d = size).
    { unfold get_slice in E. destruct (negb _); [discriminate|]. destruct (_ <? _); [discriminate|].
      destruct (_ <? _); [discriminate|]. unfold r_slice in E.
      destruct (r_byte r + size <=? length (r_buf r)) eqn:E2; [|discriminate]. injection E as <- _.
      unfold slice. rewrite firstn_length, skipn_length. lia. }
    unfold sb_wf, sb_as_ref; simpl. rewrite app_length, skipn_length, repeat_length. split; [lia|]. split; [|auto]. now apply firstn_app_exact.
Qed.
Theorem C48_sized_buf_eq cap a b : sb_wf cap a -> sb_wf cap b -> sb_eqb a b = true <-> sb_as_ref a = sb_as_ref b.
Proof.
  unfold sb_wf, sb_eqb. intros Ha Hb. rewrite andb_true_iff, list_eqb_eq, Nat.eqb_eq. split; [tauto|].
  intros H. split; [|auto]. apply (f_equal (@length N)) in H. unfold sb_as_ref in H. rewrite !firstn_length in H. lia.
Qed.
Lemma registry_eqb_eq a b : registry_eqb a b = true <-> a = b.
Proof. unfold registry_eqb. rewrite N.eqb_eq. destruct a, b; split; intros H; try reflexivity; discriminate. Qed.
Lemma vendor_eqb_eq a b : vendor_eqb a b = true <-> a = b.
Proof. destruct a, b; simpl; rewrite ?N.eqb_eq; split; intros H; try discriminate; try congruence; auto. Qed.
Theorem C48_opaque_element_eq a b : oes_len a <= length (oes_data a) -> oes_len b <= length (oes_data b) ->
  oes_eqb a b = true <-> oes_view a = oes_view b.
Proof.
  intros Ha Hb. unfold oes_eqb, oes_view. rewrite !andb_true_iff, registry_eqb_eq, vendor_eqb_eq, Nat.eqb_eq, list_eqb_eq.
  split.
  - intros [[[-> ->] _] ->]. reflexivity.
  - intros [= H1 H2 H3]. repeat split; auto. apply (f_equal (@length N)) in H3. rewrite !firstn_length in H3. lia.
Qed.
Lemma slices_eqb_eq a : forall b, slices_eqb a b = true <-> a = b.
Proof.
  induction a as [|x a IH]; intros [|y b]; simpl; split; intros H; try discriminate; try reflexivity.
  - apply andb_true_iff in H as [H1 H2]. apply list_eqb_eq in H1. apply IH in H2. congruence.
  - injection H as -> ->. apply andb_true_iff. split; [apply list_eqb_refl|now apply IH].
Qed.
Theorem C48_chain_eq a b : cs_eqb a b = true <-> cs_view a = cs_view b.
Proof.
  unfold cs_eqb, cs_view. rewrite !andb_true_iff, !list_eqb_eq, slices_eqb_eq. split.
  - intros [[-> ->] ->]. reflexivity.
  - intros [= -> -> ->]. auto.
Qed.
(** The storage-level chain builder behaves as the model's. *)
Theorem C48_chain_builder c cert : cs_num c <= MAX_CERT_CHAIN_DEPTH -> length (cs_arr c) = MAX_CERT_CHAIN_DEPTH ->
  cs_view (cs_new (cs_root c) (cs_leaf c)) = chain_new (cs_root c) (cs_leaf c) /\
  match cs_append c cert, append_intermediate_cert (cs_view c) cert with
  | Ok c', Ok v => cs_view c' = v /\ cs_num c' <= MAX_CERT_CHAIN_DEPTH /\ length (cs_arr c') = MAX_CERT_CHAIN_DEPTH
  | Err e, Err e' => e = e'
  | _, _ => False
  end.
Proof.
  intros H1 H2. split; [reflexivity|]. unfold cs_append, append_intermediate_cert, cs_view. simpl.
  assert (L : length (cs_intermediates c) = cs_num c) by (unfold cs_intermediates; rewrite firstn_length; lia). rewrite L.
  destruct (Nat.eqb_spec (cs_num c) MAX_CERT_CHAIN_DEPTH); [reflexivity|].
  destruct (Nat.ltb_spec (cs_num c) (length (cs_arr c))); [|lia].
  unfold cs_intermediates; simpl. rewrite upd_length. split; [|lia]. f_equal.
  rewrite upd_split by lia. rewrite Nat.add_1_r.
  rewrite firstn_app, firstn_firstn, firstn_length. replace (Nat.min (S (cs_num c)) (cs_num c)) with (cs_num c) by lia.
  replace (S (cs_num c) - Nat.min (cs_num c) (length (cs_arr c))) with 1 by lia. reflexivity.
Qed.
(** Transcripts: equality implies equal contents (missing: the converse, which
    fails, below). *)
Theorem C48_transcript_eq_partial a b : t_eqb a b = true -> t_get a = t_get b.
Proof.
  unfold t_eqb. rewrite andb_true_iff, list_eqb_eq, Nat.eqb_eq. unfold t_get. intros [-> ->]. reflexivity.
Qed.
(** Equality of transcripts is equality of contents and of the whole storage,
    stale bytes included. *)
Theorem C48_transcript_eq_iff a b : t_eqb a b = true <-> t_buf a = t_buf b /\ t_len a = t_len b.
Proof. unfold t_eqb, t_len. now rewrite andb_true_iff, list_eqb_eq, Nat.eqb_eq. Qed.
End C48.
(** Extending and clearing leaves a transcript equal in contents to, but not
    equal to, a new one. *)
Theorem C48_transcript_eq_refuted : exists t : Transcript, 
  (let '(r, t1) := @t_extend [1]%N (@transcript_new sample_cfg) in r = Ok tt /\ t = t_clear t1) /\
  t_get t = t_get (@transcript_new sample_cfg) /\ t_eqb t (@transcript_new sample_cfg) = false.
Proof.
  eexists. split; [split; reflexivity|]. split; reflexivity.
Qed.
Example C48_nonvacuous : sb_eqb (mkSB 2 [1; 2; 9]%N) (mkSB 2 [1; 2; 7]%N) = true /\
  sb_eqb (mkSB 2 [1; 2; 9]%N) (mkSB 1 [1; 2; 9]%N) = false.
Proof. split; reflexivity. Qed.
Print Assumptions C44_accepted_config_never_fails.
Print Assumptions C45_slot_mask.
Print Assumptions C48_chain_builder.
Print Assumptions C49_index_codes.
Print Assumptions C49_requester_flag_names.
Print Assumptions C49_names_denote_spdm_bits.
Print Assumptions C49_constants_are_spdm_bits.
