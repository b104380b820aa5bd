(** C62: the public hashing and signing interface. *)
From Verif Require Import Base BaseLemmas Config ConfigBuild Encoding MsgCommon MsgAlgorithms MsgCertificates Crypto CryptoApi SpecWire SpecResponder
     SpecRequester SpecAgree PropDer PropReqPanic Sample SampleRun.

(** What is assumed of the external hash implementations: feeding chunks and
    finalizing gives the hash of their concatenation. *)
Definition implements (i : HashImpl) (hash : list N -> list N) : Prop :=
  forall chunks, h_finalize i (fold_left (h_update i) chunks (h_new i)) = hash (concat chunks).
Definition impls_ok (hi : HashImpls) (hash : N -> list N -> list N) : Prop :=
  implements (hi_sha256 hi) (hash 1%N) /\ implements (hi_sha384 hi) (hash 2%N) /\ implements (hi_sha512 hi) (hash 4%N).

Section PropCryptoApi.
Context {cfg : Config}.
Variable hi : HashImpls.
Variable hash : N -> list N -> list N.
Hypothesis HI : impls_ok hi hash.
Definition run (d : ProvidedDigests hi) (chunks : list (list N)) : ProvidedDigests hi := fold_left (digests_update hi) chunks d.
Lemma run_256 chunks : forall d, run (PSha256 hi d) chunks = PSha256 hi (fold_left (h_update _) chunks d).
Proof. induction chunks as [|c l IH]; intros d; [reflexivity|]. apply IH. Qed.
Lemma run_384 chunks : forall d, run (PSha384 hi d) chunks = PSha384 hi (fold_left (h_update _) chunks d).
Proof. induction chunks as [|c l IH]; intros d; [reflexivity|]. apply IH. Qed.
Lemma run_512 chunks : forall d, run (PSha512 hi d) chunks = PSha512 hi (fold_left (h_update _) chunks d).
Proof. induction chunks as [|c l IH]; intros d; [reflexivity|]. apply IH. Qed.

(** A hash object exists exactly for SHA-256, SHA-384 and SHA-512; fed with any
    chunks it finishes with the hash of their concatenation, when that fits a
    DigestBuf, and panics otherwise. *)
Theorem C62_incremental algo : 
  ((exists d, digests_try_from hi algo = Some d) <-> sha2 algo) /\
  forall d chunks E, digests_try_from hi algo = Some d ->
    digests_finalize (E := E) hi (fold_left (digests_update hi) chunks d) =
    if length (hash algo (concat chunks)) <=? MAX_DIGEST_SIZE then Ok (hash algo (concat chunks)) else Panic PUnwrap.
Proof.
  destruct HI as (H1 & H2 & H3). unfold digests_try_from, sha2.
  destruct (N.eqb_spec algo SHA_256) as [->|N1]; [|destruct (N.eqb_spec algo SHA_384) as [->|N2]; [|destruct (N.eqb_spec algo SHA_512) as [->|N3]]].
  - split; [split; eauto|]. intros d chunks E [= <-]. change (fold_left (digests_update hi) chunks) with (fun x => run x chunks). cbv beta. rewrite run_256.
    unfold digests_finalize. cbv zeta. rewrite !H1. reflexivity.
  - split; [split; eauto|]. intros d chunks E [= <-]. change (fold_left (digests_update hi) chunks) with (fun x => run x chunks). cbv beta. rewrite run_384.
    unfold digests_finalize. cbv zeta. rewrite !H2. reflexivity.
  - split; [split; eauto|]. intros d chunks E [= <-]. change (fold_left (digests_update hi) chunks) with (fun x => run x chunks). cbv beta. rewrite run_512.
    unfold digests_finalize. cbv zeta. rewrite !H3. reflexivity.
  - split; [|discriminate]. split; [intros [d D]; discriminate|]. intros [X|[X|X]]; contradiction.
Qed.
(** However the data is cut into chunks, the outcome is that of hashing it at once. *)
Corollary C62_chunking algo d chunks E : digests_try_from hi algo = Some d ->
  digests_finalize (E := E) hi (fold_left (digests_update hi) chunks d) = digests_digest hi algo (concat chunks).
Proof.
  intros H. rewrite (proj2 (C62_incremental algo) d chunks E H). unfold digests_digest. rewrite H.
  change (digests_update hi d (concat chunks)) with (fold_left (digests_update hi) [concat chunks] d).
  rewrite (proj2 (C62_incremental algo) d [concat chunks] E H). cbn [concat]. rewrite app_nil_r. reflexivity.
Qed.
(** One-shot hashing is what the protocol model (Crypto.v) assumes of the ring
    provider, panics included. *)
Theorem C62_digest_refines (cr : Crypto) algo data E : provider = ProviderRing -> sha = hash ->
  digests_digest (E := E) hi algo data = provided_digest algo data.
Proof.
  intros PR SH. unfold provided_digest. rewrite PR, SH. unfold digests_digest.
  destruct (digests_try_from hi algo) as [d|] eqn:ED.
  - pose proof (proj2 (C62_incremental algo) d [data] E ED) as X. cbn [fold_left concat] in X. rewrite app_nil_r in X. rewrite X.
    destruct (proj1 (proj1 (C62_incremental algo)) (ex_intro _ d ED)) as [->|[-> | ->]]; reflexivity.
  - assert (NS : ~ sha2 algo). { intros S. apply (proj2 (proj1 (C62_incremental algo))) in S as [d D]. congruence. }
    unfold sha2 in NS. destruct (N.eqb_spec algo SHA_256); [exfalso; auto|]. destruct (N.eqb_spec algo SHA_384); [exfalso; auto|].
    destruct (N.eqb_spec algo SHA_512); [exfalso; auto|]. reflexivity.
Qed.
End PropCryptoApi.

(** new_signer: a signer exactly for a key ring accepts, for P-256 and P-384;
    any other algorithm panics.  In particular no algorithm a build accepts for
    signing makes it panic. *)
Theorem C62_new_signer rk algo key :
  new_signer rk algo key =
  (if (algo =? 0x10)%N || (algo =? 0x80)%N
   then match rk_from_pkcs8 rk algo key with Some k => Ok k | None => Err tt end
   else Panic PUnimplemented).
Proof.
  unfold new_signer, spdm_to_ring. destruct (N.eqb_spec algo ECDSA_ECC_NIST_P256) as [->|N1]; [reflexivity|].
  destruct (N.eqb_spec algo ECDSA_ECC_NIST_P384) as [->|N2]; [reflexivity|].
  change 0x10%N with ECDSA_ECC_NIST_P256. change 0x80%N with ECDSA_ECC_NIST_P384. apply N.eqb_neq in N1, N2. rewrite N1, N2. reflexivity.
Qed.
Theorem C62_configured_signers ring oc rnd c cfg name a rk key : gen_config ring oc rnd c = Ok cfg ->
  In name (@SIGNING_ALGOS cfg) -> BaseAsymAlgo_from_str name = Some a -> forall p, new_signer rk a key <> Panic p.
Proof.
  intros H I S p. unfold gen_config in H. destruct (max_signature_size (sc_asymmetric_signing c)) as [ms|e|q] eqn:E1; try discriminate. simpl in H.
  destruct (cert_chains_validate c) as [[]|e|q]; try discriminate. simpl in H. destruct (validate_capabilities ring (sc_capabilities c)) as [[]|e|q]; try discriminate.
  simpl in H. injection H as <-. cbn [SIGNING_ALGOS] in I. clear -I S E1.
  assert (X : name = "ECDSA_ECC_NIST_P256"%string).
  { revert I E1. generalize (sc_asymmetric_signing c) as l. induction l as [|x l IH]; cbn [In max_signature_size]; [tauto|].
    destruct (String.eqb_spec x "ECDSA_ECC_NIST_P256"); [|discriminate]. intros [<-|I] E; auto. }
  subst name. vm_compute in S. injection S as <-. rewrite C62_new_signer. cbn [orb N.eqb Pos.eqb]. destruct (rk_from_pkcs8 rk 16 key); discriminate.
Qed.

(** * Signing and verifying *)
(** What is assumed of ring and webpki for a key [k] that belongs to the
    certificate [leaf]: its signatures are two numbers of [half] bytes each, neither
    of them zero, and their DER form verifies. *)
Definition key_of_cert {cr : Crypto} (rk : RingKeys) (k : rk_key rk) (algo : N) (half : nat) (leaf : list N) : Prop :=
  forall rng msg s, rk_sign rk k rng msg = Some s ->
    length s = 2 * half /\ bytes s /\ be_val (firstn half s) <> 0%N /\ be_val (skipn half s) <> 0%N /\
    forall der, der_signature der (be_val (firstn half s)) (be_val (skipn half s)) -> webpki_sig_ok algo leaf msg der = true.
(** A signer returns ring's signature of exactly the message, or an error, and
    never panics. *)
Theorem C62_sign rk k rng msg :
  (forall s, ring_sign rk k rng msg = Ok s <-> rk_sign rk k rng msg = Some s) /\
  (forall e, ring_sign rk k rng msg = Err e <-> rk_sign rk k rng msg = None) /\ forall p, ring_sign rk k rng msg <> Panic p.
Proof.
  unfold ring_sign. destruct (rk_sign rk k rng msg) as [s|]; split; [|split| |split]; try (split; congruence); try discriminate.
  - intros []. split; reflexivity.
Qed.
Section SignVerify.
Context {cfg : Config} {cr : Crypto}.
(** In every build: what new_signer's signer signs verifies under its certificate. *)
Theorem C62_sign_verify {E} rk key k rng msg s leaf : built -> provider = ProviderRing ->
  new_signer rk 0x10 key = Ok k -> key_of_cert rk k 0x10 32 leaf -> ring_sign rk k rng msg = Ok s ->
  verify_signature (E := E) leaf 0x10 msg s = Ok true.
Proof.
  intros B PR _ KC HS. destruct (built_facts B) as (_ & M & _). apply (proj1 (C62_sign rk k rng msg)) in HS.
  destruct (KC rng msg s HS) as (L & BS & Z1 & Z2 & V).
  unfold verify_signature. rewrite PR. cbn [spdm_to_webpki N.eqb Pos.eqb ECDSA_ECC_NIST_P256 rbind].
  change (@spdm_to_webpki E 16) with (@Ok E N 16%N). cbn [rbind].
  destruct (C43_bin_to_der s 32 L) as (n & o & E1 & E2 & E3 & E4); auto; try (rewrite M; lia); try (rewrite M; discriminate).
  rewrite E1. destruct (Nat.leb_spec n (length o)); [|lia]. rewrite (V _ E4). reflexivity.
Qed.
(** So a slot filled with such a signer is what an honest responder needs (C39):
    the signatures are 64 bytes and verify under the leaf certificate. *)
Theorem C62_ring_slot rk key k root f : new_signer rk 0x10 key = Ok k ->
  fs_signer f = ring_sign rk k -> (forall rng digest, rk_sign rk k rng digest <> None) ->
  key_of_cert rk k 0x10 32 (cc_leaf_cert (fs_chain f)) ->
  bytes (chain_bytes (fs_chain f)) -> length (chain_bytes (fs_chain f)) <= MAX_CERT_CHAIN_SIZE ->
  chain_trusted root 0x10 32 (chain_bytes (fs_chain f)) (fs_chain f) ->
  good_slot cfg cr root f.
Proof.
  intros _ FS TO KC B1 B2 CT. split; [exact B1|]. split; [exact B2|]. split; [exact CT|]. intros r digest _ _.
  destruct (rk_sign rk k r digest) as [s|] eqn:ES; [|destruct (TO _ _ ES)]. destruct (KC r digest s ES) as (L & BS & Z1 & Z2 & V).
  exists s. split; [rewrite FS; now apply (proj1 (C62_sign rk k r digest))|]. split; [exact L|]. split; [exact BS|].
  destruct (C43_any_buffer s []) as (der & DS & _); [lia|exact BS|rewrite L; exact Z1|rewrite L; exact Z2|].
  rewrite L in DS. change (2 * 32 / 2) with 32 in DS. exists 32, der. exact (conj L (conj Z1 (conj Z2 (conj DS (V der DS))))). 
Qed.
(** A P-384 key signs as well, but no build verifies its signatures: the buffer for
    the DER form has 72 bytes, and verify_signature panics unless both numbers are
    so small (below 2^272 of about 2^384) that they fit. *)
Lemma der_uint_long enc v n : der_uint enc v -> (256 ^ N.of_nat n <= v)%N -> 3 + n <= length enc.
Proof.
  intros (c & -> & B & _ & V) L. pose proof (be_val_bound c B) as BB. rewrite V in BB.
  assert (n < length c).
  { destruct (Nat.le_gt_cases (length c) n) as [X|X]; [exfalso|exact X].
    assert (256 ^ N.of_nat (length c) <= 256 ^ N.of_nat n)%N by (apply N.pow_le_mono_r; lia). lia. }
  rewrite !app_length, der_len_length. cbn [length]. unfold der_length. destruct (length c <? 128), (length c <? 256); lia.
Qed.
Theorem C62_p384_verify_panics {E} leaf msg s : built -> provider = ProviderRing -> length s = 96 -> bytes s ->
  (2 ^ 272 <= be_val (firstn 48 s))%N -> (2 ^ 272 <= be_val (skipn 48 s))%N ->
  exists p, verify_signature (E := E) leaf 0x80 msg s = Panic p.
Proof.
  intros B PR L BS R S. destruct (built_facts B) as (_ & M & _).
  unfold verify_signature. rewrite PR. change (@spdm_to_webpki E 0x80) with (@Ok E N 0x80%N). cbn [rbind].
  assert (M2 : max_encoded_size = 72) by (unfold max_encoded_size; rewrite M; reflexivity). rewrite M2.
  destruct (C43_any_buffer s (repeat 0%N 72)) as (enc & DS & MM); [lia|exact BS|rewrite L; change (96 / 2) with 48; lia..|].
  rewrite L in DS. change (96 / 2) with 48 in DS. destruct DS as (re & se & D1 & D2 & EQ).
  change (2 ^ 272)%N with (256 ^ N.of_nat 34)%N in R, S. pose proof (der_uint_long _ _ _ D1 R) as X1. pose proof (der_uint_long _ _ _ D2 S) as X2.
  assert (LE : 72 < length enc).
  { rewrite EQ, 2!app_length, (app_length re). cbn [length]. rewrite der_len_length. unfold der_length.
    destruct (length (re ++ se) <? 128), (length (re ++ se) <? 256); lia. }
  rewrite repeat_length in MM. apply Nat.leb_gt in LE. rewrite LE in MM. destruct MM as (p & EP).
  destruct (bin_to_der s (repeat 0%N 72)) as [r o]. cbn [fst] in EP. subst r. exists p. reflexivity.
Qed.
(** Exactly the P-384 signatures whose DER form needs more than 72 bytes panic; the
    others are checked as any signature is. *)
Theorem C62_p384_verify_exact {E} leaf msg s : built -> provider = ProviderRing -> length s = 96 -> bytes s ->
  be_val (firstn 48 s) <> 0%N -> be_val (skipn 48 s) <> 0%N ->
  forall der, der_signature der (be_val (firstn 48 s)) (be_val (skipn 48 s)) ->
  if length der <=? 72 then verify_signature (E := E) leaf 0x80 msg s = Ok (webpki_sig_ok 0x80%N leaf msg der)
  else exists p, verify_signature (E := E) leaf 0x80 msg s = Panic p.
Proof.
  intros B PR L BS R S der DER. destruct (built_facts B) as (_ & M & _).
  unfold verify_signature. rewrite PR. change (@spdm_to_webpki E 0x80) with (@Ok E N 0x80%N). cbn [rbind].
  assert (M2 : max_encoded_size = 72) by (unfold max_encoded_size; rewrite M; reflexivity). rewrite M2.
  destruct (C43_any_buffer s (repeat 0%N 72)) as (enc & DS & MM); [lia|exact BS|rewrite L; change (96 / 2) with 48; assumption..|].
  rewrite L in DS. change (96 / 2) with 48 in DS. pose proof (C43_der_canonical _ _ _ _ DER DS). subst enc.
  rewrite repeat_length in MM. destruct (Nat.leb_spec (length der) 72) as [LE|LE].
  - rewrite MM. replace (length der <=? length (der ++ skipn (length der) (repeat 0%N 72))) with true.
    + rewrite firstn_app, Nat.sub_diag, firstn_O, app_nil_r, firstn_all. reflexivity.
    + symmetry. apply Nat.leb_le. rewrite app_length. lia.
  - destruct MM as (p & EP). destruct (bin_to_der s (repeat 0%N 72)) as [r o]. cbn [fst] in EP. subst r. exists p. reflexivity.
Qed.
End SignVerify.

(** A non-trivial instance: an implementation that counts and sums the bytes. *)
Definition sum_impl (len : nat) : HashImpl :=
  mkHashImpl (nat * N) (0, 0%N) (fun s d => (fst s + length d, (fold_left N.add d (snd s))%N)) (fun s => repeat ((snd s + N.of_nat (fst s)) mod 256)%N len).
Definition sum_hash (h : N) (data : list N) : list N := repeat ((fold_left N.add data 0 + N.of_nat (length data)) mod 256)%N (hash_len h).
Definition sum_impls : HashImpls := mkHashImpls (sum_impl 32) (sum_impl 48) (sum_impl 64).
Example C62_example : impls_ok sum_impls sum_hash.
Proof.
  assert (X : forall chunks n s, fold_left (fun s d => (fst s + length d, (fold_left N.add d (snd s))%N)) chunks (n, s) =
                                 (n + length (concat chunks), fold_left N.add (concat chunks) s)).
  { induction chunks as [|c l IH]; intros n s; cbn [fold_left concat fst snd]; [now rewrite Nat.add_0_r|]. rewrite IH, app_length, fold_left_app, Nat.add_assoc. reflexivity. }
  repeat split; intros chunks; cbn [hi_sha256 hi_sha384 hi_sha512 sum_impls sum_impl h_finalize h_update h_new]; rewrite X; reflexivity.
Qed.
Example C62_hash_example : exists out : list N, digests_digest (cfg := sample_cfg) (E := unit) sum_impls 2 [1; 2; 3]%N = Ok out /\ out = repeat 9%N 48.
Proof. eexists. split; vm_compute; reflexivity. Qed.
(** A toy key for the toy signatures of SampleRun. *)
Definition toy_keys : RingKeys := mkRingKeys unit (fun _ key => if length key =? 3 then Some tt else None) (fun _ _ msg => Some (repeat (toy_key msg) 64)).
Lemma toy_key_range msg : (1 <= toy_key msg < 128)%N.
Proof. unfold toy_key. pose proof (N.mod_upper_bound (nth 0 msg 0%N) 100 ltac:(lia)). lia. Qed.
Lemma toy_uint k : (1 <= k < 128)%N -> der_uint ([0x02]%N ++ der_len 32 ++ repeat k 32) (be_val (repeat k 32)).
Proof.
  intros H. exists (repeat k 32). split; [reflexivity|]. split; [|split; [|reflexivity]].
  - apply Forall_forall. intros x I. apply repeat_spec in I. subst x. red. lia.
  - cbn [repeat minimal_uint]. split; lia.
Qed.
Example C62_sign_example leaf : new_signer toy_keys 0x10 [1; 2; 3]%N = Ok tt /\ key_of_cert (cr := sample_crypto) toy_keys tt 0x10 32 leaf /\
  @built sample_cfg sample_crypto /\ ring_sign toy_keys tt [] [9]%N = Ok (repeat 10%N 64) /\
  bytes (repeat 255%N 96) /\ (2 ^ 272 <= be_val (firstn 48 (repeat 255%N 96)))%N.
Proof.
  split; [reflexivity|]. split; [|split; [exact sample_built|split; [reflexivity|split; [apply Forall_forall; intros x I; apply repeat_spec in I; subst x; red; lia|vm_compute; discriminate]]]].
  intros rng msg s HS. assert (ES : s = repeat (toy_key msg) 64) by (cbn [toy_keys rk_sign] in HS; congruence). clear HS. subst s. pose proof (toy_key_range msg) as H. set (k := toy_key msg) in *. rewrite repeat_length. split; [reflexivity|].
  change (firstn 32 (repeat k 64)) with (repeat k 32). change (skipn 32 (repeat k 64)) with (repeat k 32).
  assert (Z : be_val (repeat k 32) <> 0%N).
  { change (repeat k 32) with (k :: repeat k 31). cbn [be_val]. rewrite repeat_length. intros Z.
    assert (k * 256 ^ N.of_nat 31 <> 0)%N by (apply N.neq_mul_0; split; [lia|apply N.pow_nonzero; lia]). lia. }
  split; [apply Forall_forall; intros x I; apply repeat_spec in I; subst x; red; lia|]. split; [exact Z|]. split; [exact Z|].
  intros der DS. assert (E : der = [0x30]%N ++ der_len 68 ++ ([0x02]%N ++ der_len 32 ++ repeat k 32) ++ ([0x02]%N ++ der_len 32 ++ repeat k 32)).
  { apply (C43_der_canonical _ _ _ _ DS). eexists _, _. split; [exact (toy_uint k H)|]. split; [exact (toy_uint k H)|]. reflexivity. }
  rewrite E. cbn [sample_crypto webpki_sig_ok]. fold k. apply N.eqb_eq. reflexivity.
Qed.
