(** Two runs of a handler on output buffers that are both large enough for any
    message it may write: same outcome. *)
From Verif Require Import Base BaseLemmas Config Encoding MsgCommon MsgVersion MsgCapabilities MsgAlgorithms MsgDigest
     MsgCertificates MsgChallenge MsgError Transcript Crypto Responder Requester SpecWire SpecMsgs SpecResponder SpecVerdict SpecRequester
     FlagLemmas PropTools PropTranscript PropVersionCaps PropAlg PropCerts PropChal PropGeneric PropTables RspParts RspStep RspVerdict ReqStep.
#[local] Opaque chain_bytes.

Section Rsp.
Context {cfg : Config} {cr : Crypto}.
Variable room : nat.

Definition crel (k : nat) (c1 c2 : Ctx) : Prop :=
  c_tr c1 = c_tr c2 /\ room <= length (c_rsp c1) /\ room <= length (c_rsp c2) /\
  k <= length (c_rsp c1) /\ k <= length (c_rsp c2) /\ firstn k (c_rsp c1) = firstn k (c_rsp c2).
Definition bsim {A} (k : nat) (m : H A) (post : A -> nat) : Prop := forall c1 c2, crel k c1 c2 ->
  fst (m c1) = fst (m c2) /\ crel 0 (snd (m c1)) (snd (m c2)) /\
  forall a, fst (m c1) = Ok a -> crel (post a) (snd (m c1)) (snd (m c2)).
Lemma crel_weaken k k' c1 c2 : k' <= k -> crel k c1 c2 -> crel k' c1 c2.
Proof.
  intros L (A & B & C & D & E & F). repeat split; auto; try lia.
  apply (f_equal (firstn k')) in F. now rewrite !firstn_firstn, !Nat.min_l in F by lia.
Qed.
Lemma bsim_bind {A B} k (m : H A) (f : A -> H B) post1 post :
  bsim k m post1 -> (forall a, bsim (post1 a) (f a) post) -> bsim k (bind m f) post.
Proof.
  intros Hm Hf c1 c2 R. destruct (Hm _ _ R) as (E1 & R0 & R1). unfold bind. destruct (m c1) as [r1 d1], (m c2) as [r2 d2]. cbn [fst snd] in *. subst r2.
  destruct r1 as [a|e|p]; cbn [fst snd]; [apply Hf; auto| |]; (split; [reflexivity|]; split; [exact R0|discriminate]).
Qed.
Lemma bsim_pure {A} k (r : res ResponderError A) post : (forall a, r = Ok a -> post a <= k) -> bsim k (fun c => (r, c)) post.
Proof.
  intros L c1 c2 R. split; [reflexivity|]. split; [now apply (crel_weaken k); [lia|]|]. cbn [fst snd]. intros a Ha. apply (crel_weaken k); auto.
Qed.
Lemma bsim_lift {A B} k (r : res ResponderError A) (f : A -> H B) post : (forall a, r = Ok a -> bsim k (f a) post) -> bsim k (bind (lift r) f) post.
Proof.
  intros Hf. destruct r as [a|e|p].
  - exact (Hf a eq_refl).
  - exact (bsim_pure (A := B) k (Err e) post ltac:(discriminate)).
  - exact (bsim_pure (A := B) k (Panic p) post ltac:(discriminate)).
Qed.
Lemma bsim_map_err_lift {E A B} k (g : E -> ResponderError) (r : res E A) (f : A -> H B) post :
  (forall a, r = Ok a -> bsim k (f a) post) -> bsim k (bind (map_err g (lift r)) f) post.
Proof.
  intros Hf. destruct r as [a|e|p].
  - exact (Hf a eq_refl).
  - exact (bsim_pure (A := B) k (Err (g e)) post ltac:(discriminate)).
  - exact (bsim_pure (A := B) k (Panic p) post ltac:(discriminate)).
Qed.
Lemma bsim_err {A} k e post : bsim (A := A) k (err e) post.
Proof. apply (bsim_pure k (Err e)). discriminate. Qed.
Lemma bsim_pnc {A} k p post : bsim (A := A) k (pnc p) post.
Proof. apply (bsim_pure k (Panic p)). discriminate. Qed.
Lemma bsim_ret k n (st : RspStates) : n <= k -> bsim k (ret (n, st)) fst.
Proof. intros L. apply (bsim_pure k (Ok (n, st))). now intros a [= <-]. Qed.
Lemma bsim_extend k bs : bsim k (c_extend bs) (fun _ => k).
Proof.
  intros c1 c2 R. pose proof R as (E & A). unfold c_extend. rewrite <- E. destruct (map_err rsp_of_full (t_extend bs) (c_tr c1)) as [r t].
  cbn [fst snd]. assert (X : crel k (mkCtx (c_rsp c1) t) (mkCtx (c_rsp c2) t)) by (split; [reflexivity|exact A]).
  split; [reflexivity|]. split; [now apply (crel_weaken k); [lia|]|]. auto.
Qed.
Lemma bsim_clear k : bsim k c_clear (fun _ => k).
Proof.
  intros c1 c2 R. pose proof R as (E & A). unfold c_clear. rewrite <- E. cbn [fst snd].
  assert (X : crel k (mkCtx (c_rsp c1) (t_clear (c_tr c1))) (mkCtx (c_rsp c2) (t_clear (c_tr c1)))) by (split; [reflexivity|exact A]).
  split; [reflexivity|]. split; [now apply (crel_weaken k); [lia|]|]. auto.
Qed.
Lemma bsim_write {E B} k (from : E -> ResponderError) wr F enc (f : nat -> H B) post : writes_exactly wr F enc -> length enc <= room ->
  bsim (length enc) (f (length enc)) post -> bsim k (bind (c_write from wr) f) post.
Proof.
  intros W L Hf c1 c2 R. pose proof R as (E1 & R1 & R2 & _).
  rewrite !(bind_run _ _ _ _ _ (c_write_run from wr F enc _ W (Nat.le_trans _ _ _ L R1))),
          !(bind_run _ _ _ _ _ (c_write_run from wr F enc _ W (Nat.le_trans _ _ _ L R2))).
  apply Hf. repeat split; cbn [c_tr c_rsp]; auto; rewrite ?app_length, ?skipn_length; try lia.
  now rewrite !firstn_app_exact by reflexivity.
Qed.
Lemma bsim_prefix k n : n <= k -> bsim k (c_prefix n) (fun _ => k).
Proof.
  intros L c1 c2 R. pose proof R as (A & B & C & D & E & F). unfold c_prefix.
  destruct (Nat.leb_spec n (length (c_rsp c1))); [|lia]. destruct (Nat.leb_spec n (length (c_rsp c2))); [|lia]. cbn [fst snd].
  apply (f_equal (firstn n)) in F. rewrite !firstn_firstn, !Nat.min_l in F by lia. rewrite F.
  split; [reflexivity|]. split; [now apply (crel_weaken k); [lia|]|]. auto.
Qed.
Lemma bsim_gets k : bsim k (gets (fun c => t_get (c_tr c))) (fun _ => k).
Proof.
  intros c1 c2 R. pose proof R as (E & _). unfold gets. cbn [fst snd]. rewrite E. split; [reflexivity|].
  split; [now apply (crel_weaken k); [lia|]|]. auto.
Qed.
Lemma bsim_copy k from to src : to <= k -> bsim k (c_copy from to src) (fun _ => k).
Proof.
  intros L c1 c2 R. pose proof R as (A & B & C & D & E & F). unfold c_copy.
  assert (X : forall c, k <= length (c_rsp c) -> ((from <=? to) && (to <=? length (c_rsp c)) && (length src =? to - from)) =
     ((from <=? to) && (length src =? to - from))).
  { intros c L1. replace (to <=? length (c_rsp c)) with true by (symmetry; apply Nat.leb_le; lia). now rewrite andb_true_r. }
  rewrite !X by auto. destruct (_ && _) eqn:EC; cbn [fst snd].
  2: { split; [reflexivity|]. split; [now apply (crel_weaken k); [lia|]|]. discriminate. }
  rewrite andb_true_iff, Nat.eqb_eq, Nat.leb_le in EC. destruct EC as [C1 C2].
  assert (Y : crel k (mkCtx (firstn from (c_rsp c1) ++ src ++ skipn to (c_rsp c1)) (c_tr c1)) (mkCtx (firstn from (c_rsp c2) ++ src ++ skipn to (c_rsp c2)) (c_tr c2))).
  { repeat split; cbn [c_tr c_rsp]; auto; rewrite ?app_length, ?app_length, ?firstn_length, ?skipn_length; try lia.
    rewrite !firstn_app, !firstn_length, !Nat.min_l by lia. rewrite !firstn_firstn, !Nat.min_r by lia.
    f_equal; [apply (f_equal (firstn from)) in F; now rewrite !firstn_firstn, !Nat.min_l in F by lia|]. f_equal.
    rewrite !firstn_skipn_comm. replace (to + (k - from - length src)) with k by lia. now rewrite F. }
  split; [reflexivity|]. split; [now apply (crel_weaken k); [lia|]|]. auto.
Qed.

Variable slots : list (option FilledSlot).
Variable rnd : Rnd.
Variable req : list N.
Hypothesis Hreq : bytes req.
Hypothesis RK : rnd_ok rnd.
Hypothesis Hslots : length slots = NUM_SLOTS.
Hypothesis H8 : NUM_SLOTS <= 8.
Hypothesis HC : hash_contract.
Hypothesis B1 : 52 <= room.
Hypothesis B2 : 4 + MAX_DIGEST_SIZE * NUM_SLOTS <= room.
Hypothesis B3 : 8 + MAX_CERT_CHAIN_SIZE <= room.
Hypothesis B4 : 42 + 2 * MAX_DIGEST_SIZE + MAX_SIGNATURE_SIZE <= room.
Let chains := map (option_map fs_chain) slots.

Ltac bs1 := first
  [ apply bsim_err | apply bsim_pnc
  | apply bsim_ret; lia
  | eapply bsim_lift; intros
  | eapply bsim_map_err_lift; intros
  | eapply bsim_bind; [first [apply bsim_extend | apply bsim_clear | apply bsim_gets | apply bsim_prefix; lia | apply bsim_copy; lia]|intros; cbv beta] ].
Ltac bs := repeat bs1.

Lemma b_version k : bsim k (version_handle_msg req) fst.
Proof.
  unfold version_handle_msg. destruct (parse_header GetVersion_id req) as [[]|e|p]; bs.
  - unfold handle_get_version. bs. eapply bsim_write; [exact version_default_writes|cbn [length version_reply]; lia|]. bs.
  - destruct (nth_error req 0); bs.
Qed.
Lemma b_reset k m : bsim k m fst -> bsim k (reset_on_get_version req m) fst.
Proof. intros Hm. unfold reset_on_get_version. pose proof (b_version k). destruct (parse_header GetVersion_id req) as [[]|e|p]; auto; bs. Qed.
Lemma b_capabilities k s : bsim k (capabilities_handle_msg s req) fst.
Proof.
  apply b_reset. bs. eapply bsim_write; [apply C08_capabilities_write|rewrite app_length; cbn [length]; unfold capabilities_layout; rewrite !app_length; cbn; lia|]. bs.
Qed.
Lemma alg_writes_short body na al : negotiate_fmt body na -> choose_algorithms (E := ResponderError) na = Ok al ->
  exists enc, writes_exactly (write_msg Algorithms_id (fun e => e) (algorithms_write_body al)) (fun e => e = BufferFull) enc /\ length enc <= 52.
Proof.
  intros FB CH. destruct (@choose_spec cfg ResponderError body na FB) as (es & NE & EE & [(al' & fs & C1 & C2 & _)|((p & C1) & _)]);
    rewrite C1 in CH; [|discriminate]. injection CH as ->.
  pose proof C2 as (_ & _ & N1 & [N2 N3] & _).
  eexists. split; [exact (proj1 (C10_algorithms_write al fs _ N1 N3))|].
  rewrite (proj2 (C10_algorithms_write al fs _ N1 N3)). lia.
Qed.
Lemma b_algorithms k s : bsim k (algorithms_handle_msg s req) fst.
Proof.
  apply b_reset. bs.
  match goal with P : negotiate_algorithms_parse_body _ = Ok ?na, CH : choose_algorithms ?na = Ok _, BO : body_of req = Ok ?b |- _ =>
    apply C09_negotiate_parse in P; [destruct P as (bs0 & r0 & _ & FB); destruct (alg_writes_short _ _ _ FB CH) as (enc & W & L)|] end.
  2: { unfold body_of in *. destruct (_ <=? _); [|discriminate]. match goal with H : Ok _ = Ok _ |- _ => injection H as <- end. exact (bytes_skipn 2 req Hreq). }
  eapply bsim_write; [exact W|lia|]. bs.
Qed.
Lemma occupied_le : occupied slots <= NUM_SLOTS.
Proof. rewrite <- Hslots. unfold occupied. generalize slots. intros l. clear. induction l as [|o l IH]; simpl; [lia|]. destruct o; simpl; lia. Qed.
Lemma b_digests k s : bsim k (handle_get_digests s chains req) fst.
Proof.
  unfold handle_get_digests. eapply bsim_lift. intros mask H1.
  destruct (@mask_ok_chains cfg ResponderError slots ltac:(lia)) as (mask' & M1 & M2). fold chains in M1. rewrite M1 in H1. injection H1 as ->.
  eapply bsim_lift. intros ds H1.
  assert (LZ : length (repeat 0%N MAX_CERT_CHAIN_SIZE) = MAX_CERT_CHAIN_SIZE) by apply repeat_length.
  pose proof (hash_chains_inv _ _ HC _ _ LZ H1) as HF. rewrite (hash_chains_ok _ _ HC _ LZ HF) in H1. injection H1 as <-.
  assert (L : length ([0x11; 0x01]%N ++ digests_layout NUM_SLOTS mask (slot_chain_digest (al_base_hash (ri_algorithms s)) slots)) <= room).
  { rewrite (digests_length slots Hslots H8 HC _ _ M2 HF).
    assert (X : hash_len (al_base_hash (ri_algorithms s)) * occupied slots <= MAX_DIGEST_SIZE * NUM_SLOTS); [|lia].
    destruct (Nat.eq_dec (occupied slots) 0) as [Z|Z]; [rewrite Z; lia|]. apply Nat.mul_le_mono; [|exact occupied_le].
    assert (Y : exists c, In (Some c) chains).
    { unfold occupied in Z. destruct (filter _ slots) as [|o l] eqn:EF; [simpl in Z; lia|].
      assert (IO : In o (filter (fun o : option FilledSlot => match o with Some _ => true | None => false end) slots)) by (rewrite EF; left; auto).
      apply filter_In in IO as [IO IS]. destruct o as [f|]; [|discriminate]. exists (fs_chain f). unfold chains. apply in_map_iff. exists (Some f). auto. }
    destruct Y as (c & IC). rewrite Forall_forall in HF. destruct (HF _ IC) as (_ & _ & _ & LH). exact LH. }
  eapply bsim_write; [exact (digests_writes slots Hslots H8 HC _ _ M2 HF)|exact L|]. bs.
Qed.
Lemma b_certificate k s : bsim k (handle_get_certificate s chains req) fst.
Proof.
  unfold handle_get_certificate. eapply bsim_lift. intros body HB. eapply bsim_map_err_lift. intros gc HG.
  destruct (Nat.leb_spec NUM_SLOTS (N.to_nat (gcert_slot gc))) as [|LS]; [bs|].
  assert (LZ : length (repeat 0%N MAX_CERT_CHAIN_SIZE) = MAX_CERT_CHAIN_SIZE) by apply repeat_length.
  eapply bsim_lift. intros [pl cc] H1.
  assert (X : exists portion, pl = N.of_nat (length portion) /\ firstn (length portion) cc = portion /\ length portion <= MAX_CERT_CHAIN_SIZE).
  { destruct (slot_chain slots (N.to_nat (gcert_slot gc))) as [ch|] eqn:E1.
    - apply slot_chain_map in E1. fold chains in E1. rewrite E1 in H1.
      destruct (chain_fits_dec ch) as [F|F].
      + rewrite chain_write_fits in H1 by auto. simpl in H1. injection H1 as <- <-. exists (chain_bytes ch).
        split; [apply N.mod_small; apply F|]. split; [now apply firstn_app_exact|apply F].
      + destruct (chain_write_unfit ch _ LZ F) as (e & b' & E3). rewrite E3 in H1. discriminate.
    - unfold chains in H1. rewrite (slot_none slots Hslots H8 _ LS E1) in H1. injection H1 as <- <-. exists []. simpl. split; [auto|]. split; [auto|lia]. }
  destruct X as (portion & -> & X3 & X4).
  eapply bsim_write; [eapply (C12_certificate_write (mkCertificate _ _ _ _)); [exact X3|reflexivity]| |].
  - rewrite app_length. unfold certificate_layout. cbn [length]. rewrite !app_length. change (length (zeros 1)) with 1. unfold u16le. cbn [length]. lia.
  - bs.
Qed.
Lemma b_id_auth k s : bsim k (id_auth_handle_msg s chains req) fst.
Proof. apply b_reset. eapply bsim_map_err_lift. intros [|] _; [apply b_digests|]. eapply bsim_lift. intros [] _. apply b_certificate. Qed.
Lemma b_challenge k s : bsim k (challenge_handle_msg s slots rnd req) fst.
Proof.
  apply b_reset. eapply bsim_lift. intros [] _. cbv zeta.
  eapply bsim_lift. intros ds HD. eapply bsim_lift. intros ss HS. apply sig_size_inv in HS as [HS1 HS2].
  eapply bsim_lift. intros body _. eapply bsim_map_err_lift. intros m _. eapply bsim_lift. intros filled H1.
  unfold slot_get in H1. destruct (nth_error slots (N.to_nat (ch_slot m))) as [[f|]|] eqn:EN; try discriminate. injection H1 as ->.
  eapply bsim_lift. intros dg H1.
  assert (LZ : length (repeat 0%N MAX_CERT_CHAIN_SIZE) = MAX_CERT_CHAIN_SIZE) by apply repeat_length.
  destruct (chain_fits_dec (fs_chain filled)) as [F|F].
  2: { destruct (chain_write_unfit (fs_chain filled) _ LZ F) as (e & b' & E3). rewrite E3 in H1. discriminate. }
  rewrite chain_write_fits in H1 by auto. cbn [rmap_err rbind] in H1. destruct (_ <? _); [discriminate|].
  rewrite firstn_app_exact in H1 by reflexivity. apply digest_inv in H1 as [U ->]; [|exact HC].
  pose proof U as (_ & S2 & LH).
  rewrite digest_size_of in HD by exact S2. unfold digest_size in HD.
  destruct (Nat.leb_spec (hash_len (al_base_hash (ri_algorithms s))) MAX_DIGEST_SIZE); [|lia]. injection HD as <-.
  eapply bsim_bind; [apply bsim_extend|]. intros u. cbv beta. eapply bsim_lift. intros mask H1.
  destruct (@mask_ok cfg ResponderError slots ltac:(lia)) as (mask' & M1 & M2). rewrite M1 in H1. injection H1 as ->.
  eapply bsim_lift. intros auth H1. unfold challenge_auth_new in H1.
  destruct (digest_size (length (sha _ _))) as [?|?|?]; try discriminate. cbn [rbind] in H1.
  destruct (digest_size (length (repeat _ _))) as [?|?|?]; try discriminate. cbn [rbind] in H1.
  destruct (signature_size _) as [?|?|?]; try discriminate. cbn [rbind] in H1. injection H1 as <-.
  rewrite mutual_eq.
  assert (EA : slot_chain_digest (al_base_hash (ri_algorithms s)) slots (N.to_nat (ch_slot m)) =
               sha (al_base_hash (ri_algorithms s)) (chain_bytes (fs_chain filled))).
  { unfold slot_chain_digest, slot_chain_bytes, slot_chain. now rewrite EN. }
  rewrite <- EA. fold (zeros (hash_len (al_base_hash (ri_algorithms s)))). fold (zeros ss).
  fold (auth_of slots rnd s (ch_slot m) mask ss).
  eapply bsim_write; [exact (auth_writes slots rnd Hslots H8 HC s _ mask ss _ RK M2 EN S2)| |].
  - rewrite app_length, (auth_length slots rnd Hslots H8 HC s _ _ RK S2). unfold zeros, auth_len. rewrite repeat_length. destruct feature_rand; lia.
  - destruct (_ <? ss); [apply (bsim_pure _ (Panic POverflow)); discriminate|]. cbn [ret bind]. bs.
Qed.
Lemma b_dispatch k st : bsim k (rsp_dispatch st slots rnd req) fst.
Proof.
  destruct st as [| |s|s|s|s]; cbn [rsp_dispatch]; [apply bsim_pnc|apply b_version|apply b_capabilities|apply b_algorithms|apply b_id_auth|apply b_challenge].
Qed.
End Rsp.
