(** C44: which configurations are refused, and with which error. *)
From Verif Require Import Base BaseLemmas Config ConfigBuild Sample PropTables.

(** [s] is the first of [l] that is not one of [allowed]. *)
Definition first_other (allowed l : list string) (s : string) : Prop :=
  exists before after, l = before ++ s :: after /\ Forall (fun x => In x allowed) before /\ ~ In s allowed.
Definition signing_names : list string := ["ECDSA_ECC_NIST_P256"%string].
Definition capability_names : list string :=
  ["CERT_CAP"; "CHAL_CAP"; "ENCRYPT_CAP"; "MAC_CAP"; "MUT_AUTH_CAP"; "KEY_EX_CAP"; "KEY_UPD_CAP"]%string.
(** The faults of a configuration file; [ring]: a cryptographic provider is built in. *)
Inductive fault (ring : bool) (c : SpdmConfig) : nat -> SpdmConfigError -> Prop :=
| fault_signing a : first_other signing_names (sc_asymmetric_signing c) a -> fault ring c 1 (InvalidAsymmetricSigningAlgorithm a)
| fault_slots : ~ (1 <= sc_num_slots c <= 8) -> fault ring c 2 InvalidNumCertChains
| fault_buffer : (65536 < N.of_nat (sc_buf_size c))%N -> fault ring c 3 CertChainBufferTooLarge
| fault_depth : 24 < sc_max_depth c -> fault ring c 4 CertChainDepthTooLarge
| fault_crypto : ring = false -> sc_capabilities c <> [] -> fault ring c 5 (CryptoCapNotSupported (sc_capabilities c))
| fault_capability s : first_other capability_names (sc_capabilities c) s -> fault ring c 6 (InvalidCapability s).
(** The first in this order is reported. *)
Definition first_fault (ring : bool) (c : SpdmConfig) (e : SpdmConfigError) : Prop :=
  exists n, fault ring c n e /\ forall m e', fault ring c m e' -> n <= m.

Lemma in_eqb s l : existsb (String.eqb s) l = true <-> In s l.
Proof.
  rewrite existsb_exists. split; [intros (x & H1 & H2); apply String.eqb_eq in H2; now subst|]. intros H. exists s. split; [exact H|apply String.eqb_refl].
Qed.
Lemma first_other_cons allowed x l s : In x allowed -> (first_other allowed (x :: l) s <-> first_other allowed l s).
Proof.
  intros H. split.
  - intros (b & a & E & F & N). destruct b as [|y b]; injection E as -> ->; [contradiction|]. inversion F; subst. exists b, a. auto.
  - intros (b & a & -> & F & N). exists (x :: b), a. split; [reflexivity|]. split; [constructor; auto|auto].
Qed.
Lemma first_other_head allowed x l s : ~ In x allowed -> (first_other allowed (x :: l) s <-> s = x).
Proof.
  intros H. split.
  - intros (b & a & E & F & N). destruct b as [|y b]; injection E as -> ->; [reflexivity|]. inversion F; subst. contradiction.
  - intros ->. exists [], l. auto.
Qed.
Lemma first_other_nil allowed s : ~ first_other allowed [] s.
Proof. intros (b & a & E & _). now destruct b. Qed.
Lemma first_other_unique allowed l : forall s s', first_other allowed l s -> first_other allowed l s' -> s = s'.
Proof.
  induction l as [|x l IH]; intros s s' H1 H2; [now apply first_other_nil in H1|].
  destruct (in_dec string_dec x allowed) as [I|I].
  - apply (proj1 (first_other_cons _ _ _ _ I)) in H1, H2. eapply IH; eauto.
  - apply (first_other_head _ _ _ _ I) in H1, H2. congruence.
Qed.
Lemma signing_spec l : (max_signature_size l = Ok 64 /\ forall s, ~ first_other signing_names l s) \/
  exists s, max_signature_size l = Err (InvalidAsymmetricSigningAlgorithm s) /\ first_other signing_names l s.
Proof.
  induction l as [|x l IH]; [left; split; [reflexivity|intros s; apply first_other_nil]|]. cbn [max_signature_size].
  destruct (String.eqb_spec x "ECDSA_ECC_NIST_P256") as [->|NE].
  - assert (I : In "ECDSA_ECC_NIST_P256"%string signing_names) by (left; reflexivity).
    destruct IH as [[E H]|(s & E & H)]; [left|right; exists s]; rewrite E; split; auto.
    + intros s X. apply (proj1 (first_other_cons _ _ _ _ I)) in X. now apply H in X.
    + now apply first_other_cons.
  - right. exists x. split; [reflexivity|]. apply first_other_head; [|reflexivity]. intros [X|[]]. congruence.
Qed.
Lemma caps_spec l : (check_caps l = Ok tt /\ forall s, ~ first_other capability_names l s) \/
  exists s, check_caps l = Err (InvalidCapability s) /\ first_other capability_names l s.
Proof.
  induction l as [|x l IH]; [left; split; [reflexivity|intros s; apply first_other_nil]|]. cbn [check_caps].
  destruct (existsb (String.eqb x) allowed_caps) eqn:EX.
  - assert (I : In x capability_names) by now apply in_eqb.
    destruct IH as [[E H]|(s & E & H)]; [left|right; exists s]; rewrite E; split; auto.
    + intros s X. apply (proj1 (first_other_cons _ _ _ _ I)) in X. now apply H in X.
    + now apply first_other_cons.
  - right. exists x. split; [reflexivity|]. apply first_other_head; [|reflexivity]. intros X. apply in_eqb in X. change capability_names with allowed_caps in X. congruence.
Qed.
Lemma first_fault_unique ring c e e' : first_fault ring c e -> first_fault ring c e' -> e = e'.
Proof.
  intros (n & F & L) (n' & F' & L'). assert (n = n') as <- by (apply Nat.le_antisymm; eauto).
  inversion F; subst; inversion F'; subst; try reflexivity; try discriminate; f_equal; eapply first_other_unique; eauto.
Qed.

(** A configuration file is refused with an error exactly if that is its first fault;
    it is accepted exactly if it has none; the build script never panics on it. *)
Theorem C44_verdict ring oc rnd c :
  (forall e, gen_config ring oc rnd c = Err e <-> first_fault ring c e) /\
  ((exists cfg, gen_config ring oc rnd c = Ok cfg) <-> forall n e, ~ fault ring c n e) /\
  (forall p, gen_config ring oc rnd c <> Panic p).
Proof.
  assert (G : (exists e, gen_config ring oc rnd c = Err e /\ first_fault ring c e) \/
              (exists cfg, gen_config ring oc rnd c = Ok cfg) /\ forall n e, ~ fault ring c n e).
  { unfold gen_config.
    destruct (signing_spec (sc_asymmetric_signing c)) as [[-> S]|(s & -> & S)]; cbn [rbind].
    2: { left. eexists. split; [reflexivity|]. exists 1. split; [now constructor|]. intros m e' F; inversion F; lia. }
    unfold cert_chains_validate.
    destruct ((sc_num_slots c <? 1) || (8 <? sc_num_slots c)) eqn:E2.
    { left. eexists. split; [reflexivity|]. exists 2. rewrite orb_true_iff, !Nat.ltb_lt in E2. split; [constructor; lia|].
      intros m e' F; inversion F; subst; try lia. exfalso. eapply S; eauto. }
    rewrite orb_false_iff, !Nat.ltb_ge in E2.
    destruct (N.ltb_spec 65536 (N.of_nat (sc_buf_size c))) as [E3|E3].
    { left. eexists. split; [reflexivity|]. exists 3. split; [now constructor|].
      intros m e' F; inversion F; subst; try lia. exfalso. eapply S; eauto. }
    destruct (Nat.ltb_spec 24 (sc_max_depth c)) as [E4|E4].
    { left. eexists. split; [reflexivity|]. exists 4. split; [now constructor|].
      intros m e' F; inversion F; subst; try lia. exfalso. eapply S; eauto. }
    cbn [rbind]. unfold validate_capabilities.
    destruct (negb ring && negb match sc_capabilities c with [] => true | _ :: _ => false end) eqn:E5.
    { left. eexists. split; [reflexivity|]. exists 5. split.
      - rewrite andb_true_iff, !negb_true_iff in E5. destruct E5 as [-> E5]. constructor; [reflexivity|]. intros X. rewrite X in E5. discriminate.
      - intros m e' F; inversion F; subst; try lia. exfalso. eapply S; eauto. }
    destruct (caps_spec (sc_capabilities c)) as [[-> C]|(s & -> & C)]; cbn [rbind].
    - right. split; [eauto|]. intros n e F. inversion F; subst; try lia; [eapply S; eauto| |eapply C; eauto].
      destruct (sc_capabilities c); [contradiction|discriminate].
    - left. eexists. split; [reflexivity|]. exists 6. split; [now constructor|].
      intros m e' F; inversion F; subst; try lia; [exfalso; eapply S; eauto|].
      destruct (sc_capabilities c); [contradiction|discriminate]. }
  destruct G as [(e & E & F)|((cfg & E) & F)]; rewrite E.
  - split; [|split; [|discriminate]].
    + intros e'. split; [now intros [= <-]|]. intros F'. now rewrite (first_fault_unique _ _ _ _ F F').
    + split; [intros (cfg & X); discriminate|]. intros H. destruct F as (n & F & _). now apply H in F.
  - split; [|split; [|discriminate]].
    + intros e'. split; [discriminate|]. intros (n & X & _). now apply F in X.
    + split; [intros _; exact F|eauto].
Qed.
(** Two faults: the depth and a capability; the depth is reported. *)
Example C44_verdict_example :
  let c := mkSpdmConfig 5 600 30 4000 ["CERT_CAP"; "PSK_CAP"]%string 64 ["ECDSA_ECC_NIST_P256"%string] 5 1024 4 256 in
  gen_config true true true c = Err CertChainDepthTooLarge /\
  fault true c 6 (InvalidCapability "PSK_CAP"%string) /\ first_fault true c CertChainDepthTooLarge.
Proof.
  intros c. split; [reflexivity|]. split.
  - constructor. exists ["CERT_CAP"%string], []. split; [reflexivity|]. split; [constructor; [left; reflexivity|constructor]|].
    cbn. intuition discriminate.
  - apply (proj1 (C44_verdict true true true c)). reflexivity.
Qed.
Print Assumptions C44_verdict.
