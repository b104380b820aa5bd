(** The step relations of SpecResponder and SpecRequester determine their
    results: at most one answer, next state and log for each request.  (They are
    relations so that they can be read without the model's functions.) *)
From Verif Require Import Base BaseLemmas Config Encoding MsgCommon MsgVersion MsgCapabilities MsgAlgorithms MsgDigest
     MsgCertificates MsgChallenge MsgError Transcript Crypto Responder Requester SpecWire SpecMsgs SpecResponder SpecRequester
     FlagLemmas PropTools PropTranscript RspParts RspStep PropResponder ReqStep ReqMsg PropRequester.
#[local] Opaque chain_bytes.

(** The same build with a transcript of [n] bytes. *)
Definition grow (n : nat) (c : Config) : Config :=
  Build_Config (@NUM_SLOTS c) (@MAX_CERT_CHAIN_SIZE c) (@MAX_CERT_CHAIN_DEPTH c) n (@MAX_DIGEST_SIZE c) (@MAX_SIGNATURE_SIZE c)
    (@MAX_OPAQUE_ELEMENT_DATA_SIZE c) (@MAX_OPAQUE_ELEMENTS c) (@MAX_MEASUREMENT_BLOCKS c) (@MAX_MEASUREMENT_SIZE c)
    (@CAPABILITIES c) (@SIGNING_ALGOS c) (@overflow_checks c) (@feature_rand c).
Lemma served_grow n (c : Config) (k : Crypto) slots rnd req st log out st' log' :
  @served c k slots rnd req st log out st' log' -> @served (grow n c) k slots rnd req st log out st' log'.
Proof.
  intros [st0 log0 A1 A2|s log0 ct flags own out0 A1 A2 A3 A4 A5|s log0 body na al es fs out0 A1 A2 A3 A4|s log0 mask out0 A1 A2 A3 A4 A5
    |s log0 slot off len out0 A1 A2 A3 A4 A5 A6|s log0 slot t nonce mask filled ss sg out0 A1 A2 A3 A4 A5 A6 A7 A8 A9 A10 A11].
  - exact (@served_version (grow n c) k slots rnd req st0 log0 A1 A2).
  - exact (@served_capabilities (grow n c) k slots rnd req s log0 ct flags own out0 A1 A2 A3 A4 A5).
  - exact (@served_algorithms (grow n c) k slots rnd req s log0 body na al es fs out0 A1 A2 A3 A4).
  - exact (@served_digests (grow n c) k slots rnd req s log0 mask out0 A1 A2 A3 A4 A5).
  - exact (@served_certificate (grow n c) k slots rnd req s log0 slot off len out0 A1 A2 A3 A4 A5 A6).
  - exact (@served_challenge (grow n c) k slots rnd req s log0 slot t nonce mask filled ss sg out0 A1 A2 A3 A4 A5 A6 A7 A8 A9 A10 A11).
Qed.
Lemma served_unique {c : Config} {k : Crypto} slots rnd req st log o1 s1 l1 o2 s2 l2 :
  setting slots -> bytes req -> rnd_ok rnd ->
  served slots rnd req st log o1 s1 l1 -> served slots rnd req st log o2 s2 l2 -> o1 = o2 /\ s1 = s2 /\ l1 = l2.
Proof.
  intros (HL & H8 & HC) HB RK S1 S2. set (n := length log + length l1 + length l2).
  apply (served_grow n) in S1. apply (served_grow n) in S2.
  destruct (@t_extend_spec (grow n c) (@transcript_new (grow n c)) log (@t_new_wf (grow n c))) as [X _].
  destruct X as (t & _ & W & G & _). { cbn. lia. }
  assert (E : t_get t = log) by exact G. clear G.
  set (x := mkCtx (repeat 0%N (length o1 + length o2)) t).
  assert (LX : length (c_rsp x) = length o1 + length o2) by apply repeat_length.
  rewrite <- E in S1, S2.
  destruct (@dispatch_complete (grow n c) k slots rnd req HB HL H8 HC st x o1 s1 l1 W RK S1) as (c1 & D1 & R1 & _ & G1); [rewrite LX; lia|cbn; lia|].
  destruct (@dispatch_complete (grow n c) k slots rnd req HB HL H8 HC st x o2 s2 l2 W RK S2) as (c2 & D2 & R2 & _ & G2); [rewrite LX; lia|cbn; lia|].
  rewrite D1 in D2. injection D2 as D0 -> <-. split; [|split; [reflexivity|congruence]].
  rewrite R1 in R2. apply (f_equal (firstn (length o1))) in R2. rewrite firstn_app_exact in R2 by reflexivity.
  rewrite D0, firstn_app_exact in R2 by reflexivity. exact R2.
Qed.
Lemma requested_unique {c : Config} {k : Crypto} fresh st log o1 s1 l1 o2 s2 l2 :
  requested fresh st log o1 s1 l1 -> requested fresh st log o2 s2 l2 -> o1 = o2 /\ s1 = s2 /\ l1 = l2.
Proof.
  intros A B. destruct A as [l|s l own o H1 H2 ->|s l na o H1 ->|s l o H1 ->|s l o H1 H2 ->|s l o ->];
    inversion B as [l'|s' l' own' o' G1 G2 ->|s' l' na' o' G1 ->|s' l' o' G1 ->|s' l' o' G1 G2 ->|s' l' o' ->]; subst; auto; try congruence.
  - assert (own = own') by (eapply flags_unique; eauto). now subst.
  - assert (na = na') by (eapply own_offer_unique; eauto). now subst.
Qed.
Lemma accepted_grow n (c : Config) (k : Crypto) root rsp st log st' log' :
  @accepted c k root rsp st log st' log' -> @accepted (grow n c) k root rsp st log st' log'.
Proof.
  intros [l es v A1 A2 A3 A4|s l a b ct fl A1 A2 A3 A4|s l na es al fs body st1 A1 A2 A3 A4 A5 A6 A7 A8 A9|s l d A1 A2 A3 A4 A5 A6
    |s l cc p st1 A1 A2 A3 A4|s l m rsvd olen ss p ch l2 A1 A2 A3 A4 A5 A6 A7 A8 A9 A10 A11 A12 A13 A14 A15 A16 A17 A18].
  - exact (@accepted_version (grow n c) k root rsp l es v A1 A2 A3 A4).
  - exact (@accepted_capabilities (grow n c) k root rsp s l a b ct fl A1 A2 A3 A4).
  - exact (@accepted_algorithms (grow n c) k root rsp s l na es al fs body st1 A1 A2 A3 A4 A5 A6 A7 A8 A9).
  - exact (@accepted_digests (grow n c) k root rsp s l d A1 A2 A3 A4 A5 A6).
  - exact (@accepted_certificate (grow n c) k root rsp s l cc p st1 A1 A2 A3 A4).
  - exact (@accepted_challenge (grow n c) k root rsp s l m rsvd olen ss p ch l2 A1 A2 A3 A4 A5 A6 A7 A8 A9 A10 A11 A12 A13 A14 A15 A16 A17 A18).
Qed.
Lemma accepted_unique {c : Config} {k : Crypto} root rsp st log s1 l1 s2 l2 :
  req_setting -> bytes rsp -> st_ok st ->
  accepted root rsp st log s1 l1 -> accepted root rsp st log s2 l2 -> s1 = s2 /\ l1 = l2.
Proof.
  intros HS HB SO S1 S2. set (n := length log + length l1 + length l2).
  apply (accepted_grow n) in S1. apply (accepted_grow n) in S2.
  destruct (@t_extend_spec (grow n c) (@transcript_new (grow n c)) log (@t_new_wf (grow n c))) as [X _].
  destruct X as (t & _ & W & G & _). { cbn. lia. }
  assert (E : t_get t = log) by exact G. clear G. rewrite <- E in S1, S2.
  set (Q := mkRequester root t (Some st)).
  destruct (@handle_complete (grow n c) k Q rsp st s1 l1 HB HS eq_refl SO W S1) as (Q1 & D1 & E1 & _ & _ & G1); [cbn; lia|].
  destruct (@handle_complete (grow n c) k Q rsp st s2 l2 HB HS eq_refl SO W S2) as (Q2 & D2 & E2 & _ & _ & G2); [cbn; lia|].
  rewrite D1 in D2. injection D2 as _ <-. split; congruence.
Qed.
