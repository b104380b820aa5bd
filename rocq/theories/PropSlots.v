(** C60: slots are isolated from one another and keys are used for CHALLENGE only. *)
From Verif Require Import Base BaseLemmas Config Encoding MsgCommon MsgVersion MsgCapabilities MsgAlgorithms MsgDigest
     MsgCertificates MsgChallenge MsgError Transcript Crypto Responder Requester SpecWire SpecResponder SpecSlots RspParts
     PropResponder Sample SampleRun.

Section PropSlots.
Context {cfg : Config} {cr : Crypto}.
Implicit Types slots : list (option FilledSlot).

(** * Requests *)
Lemma header_true id req : parse_header id req = Ok true -> code req = SPDM_CODE id.
Proof.
  unfold parse_header, code. destruct (negb (2 <? length req)); [discriminate|].
  destruct req as [|a [|b r]]; cbn [nth_error]; try discriminate. destruct (N.eqb_spec b (SPDM_CODE id)) as [->|]; simpl; [auto|discriminate].
Qed.
Lemma expect_true id req u : rsp_expect id req = Ok u -> code req = SPDM_CODE id.
Proof.
  unfold rsp_expect. destruct (parse_header id req) as [[|]|e|p] eqn:E; try discriminate; [intros; eapply header_true; eauto|].
  destruct (nth_error req 0); discriminate.
Qed.
Lemma body_first req body : @body_of ResponderError req = Ok body -> forall a, nth_error body 0 = Some a -> nth 2 req 0%N = a.
Proof.
  unfold body_of, HEADER_SIZE. destruct (2 <=? length req); [|discriminate]. intros H a. assert (body = skipn 2 req) as -> by congruence.
  rewrite nth_error_skipn'. apply nth_error_nth.
Qed.
Lemma first_byte buf x r : get_byte (reader_new buf) = (Ok x, r) -> nth_error buf 0 = Some x.
Proof.
  unfold get_byte, reader_new, r_is_aligned, r_is_empty, r_index. cbn [r_bit r_byte r_buf]. simpl negb. cbn iota.
  destruct (length buf =? 0); [discriminate|]. destruct (nth_error buf 0); congruence.
Qed.
Lemma get_certificate_slot body m : get_certificate_parse_body body = Ok m -> nth_error body 0 = Some (gcert_slot m).
Proof.
  unfold get_certificate_parse_body, run_parser, get_certificate_parse, bind, ret.
  destruct (get_byte (reader_new body)) as [[x|e|p] r] eqn:E; try discriminate. apply first_byte in E.
  destruct (skip_reserved 1 r) as [[[]|e|p] r1]; try discriminate. destruct (get_u16 r1) as [[o|e|p] r2]; try discriminate.
  destruct (get_u16 r2) as [[l|e|p] r3]; try discriminate. cbn. intros [= <-]. exact E.
Qed.
Lemma challenge_slot_byte body m : challenge_parse_body body = Ok m -> nth_error body 0 = Some (ch_slot m).
Proof.
  unfold challenge_parse_body, run_parser, challenge_parse, bind, ret, map_err, lift.
  destruct (get_byte (reader_new body)) as [[x|e|p] r] eqn:E; cbn; try discriminate. apply first_byte in E.
  destruct (get_byte r) as [[t|e|p] r1]; cbn; try discriminate. destruct (of_option InvalidMeasurementHashType (mht_of_u8 t)) as [t'|e|p]; cbn; try discriminate.
  destruct (nonce_read r1) as [[n|e|p] r2]; cbn; try discriminate. intros [= <-]. exact E.
Qed.

(** * Slots *)
Lemma is_filled_spec slots i : is_filled slots i = true <-> filled slots i.
Proof. unfold is_filled, filled. destruct (nth_error slots i) as [[s|]|]; split; intros H; eauto; try discriminate; destruct H as (? & H); discriminate. Qed.
Lemma same_filled slots slots' i : same_places slots slots' -> is_filled slots i = is_filled slots' i.
Proof.
  intros [_ H]. specialize (H i). rewrite <- !is_filled_spec in H. destruct (is_filled slots i), (is_filled slots' i); auto; [symmetry|]; tauto.
Qed.
Lemma mask_same {E A B} (l : list (option A)) : forall (l' : list (option B)) i b, length l = length l' ->
  (forall j, match nth_error l j with Some (Some _) => true | _ => false end = match nth_error l' j with Some (Some _) => true | _ => false end) ->
  @create_slot_mask_from cfg E A i l b = create_slot_mask_from i l' b.
Proof.
  induction l as [|x l IH]; intros [|y l'] i b L H; try discriminate; [reflexivity|]. injection L as L.
  pose proof (H 0) as H0. cbn in H0. assert (H' := fun j => H (S j)). cbn in H'.
  destruct x, y; try discriminate; cbn [create_slot_mask_from]; [|now apply IH].
  destruct (shl8 overflow_checks 1 i); cbn [rbind]; [now apply IH|reflexivity|reflexivity].
Qed.
Lemma mask_places {E} slots slots' : same_places slots slots' -> @create_slot_mask cfg E _ slots = create_slot_mask slots'.
Proof. intros S. apply mask_same; [apply S|]. intros j. exact (same_filled _ _ j S). Qed.
Lemma map_chain slots i : match nth_error (map (option_map fs_chain) slots) i with Some (Some c) => Some c | _ => None end = slot_chain slots i.
Proof. unfold slot_chain. rewrite nth_error_map. destruct (nth_error slots i) as [[s|]|]; reflexivity. Qed.
Lemma all_chains slots slots' : length slots = length slots' -> (forall i, same_chain slots slots' i) -> map (option_map fs_chain) slots = map (option_map fs_chain) slots'.
Proof.
  revert slots'. induction slots as [|x l IH]; intros [|y l'] L H; try discriminate; [reflexivity|]. injection L as L. cbn [map]. f_equal.
  - specialize (H 0). unfold same_chain, slot_chain in H. cbn in H. destruct x, y; cbn; congruence.
  - apply IH; [exact L|]. intros i. exact (H (S i)).
Qed.

(** * One call *)
Lemma reset_same req rest rest' c : (code req <> 0x84%N -> rest c = rest' c) -> reset_on_get_version req rest c = reset_on_get_version req rest' c.
Proof.
  intros H. unfold reset_on_get_version. destruct (parse_header GetVersion_id req) as [[|]|e|p] eqn:E; try reflexivity. apply H.
  unfold parse_header in E. destruct (negb (2 <? length req)); [discriminate|]. unfold code.
  destruct req as [|a [|b r]]; cbn [nth_error nth] in *; try discriminate. destruct (N.eqb_spec b (SPDM_CODE GetVersion_id)); cbn [negb] in E; [|exact n].
  destruct (a =? SPDM_VERSION GetVersion_id)%N; discriminate.
Qed.
Lemma bind_ext {St E A B} (m : M St E A) (f g : A -> M St E B) s : (forall a s', m s = (Ok a, s') -> f a s' = g a s') -> bind m f s = bind m g s.
Proof. intros H. unfold bind. destruct (m s) as [[a|e|p] s'] eqn:EE; auto. Qed.

Lemma certificate_same s slots slots' req c : length slots = length slots' -> same_chain slots slots' (N.to_nat (nth 2 req 0%N)) ->
  handle_get_certificate s (map (option_map fs_chain) slots) req c = handle_get_certificate s (map (option_map fs_chain) slots') req c.
Proof.
  intros L S. unfold handle_get_certificate. apply bind_ext. intros body c1 E1. apply bind_ext. intros m c2 E2.
  destruct (NUM_SLOTS <=? N.to_nat (gcert_slot m)); [reflexivity|].
  assert (X : nth_error (map (option_map fs_chain) slots) (N.to_nat (gcert_slot m)) = nth_error (map (option_map fs_chain) slots') (N.to_nat (gcert_slot m))).
  { unfold lift in E1. destruct (body_of req) as [b|e|p] eqn:EB; try discriminate. injection E1 as -> <-.
    unfold map_err, lift in E2. destruct (get_certificate_parse_body body) as [m'|e|p] eqn:EP; try discriminate. injection E2 as -> <-.
    apply get_certificate_slot in EP. rewrite (body_first _ _ EB _ EP) in S. unfold same_chain, slot_chain in S. rewrite !nth_error_map.
    set (k := N.to_nat (gcert_slot m)) in *. destruct (nth_error slots k) as [[x|]|] eqn:A1, (nth_error slots' k) as [[y|]|] eqn:A2; cbn; try congruence;
      apply nth_error_None in A1 || apply nth_error_None in A2;
      (assert (k < length slots) by (apply nth_error_Some; congruence)) || (assert (k < length slots') by (apply nth_error_Some; congruence)); lia. }
  rewrite X. reflexivity.
Qed.
Lemma challenge_same s slots slots' rnd req c : same_places slots slots' ->
  (code req = 0x83%N -> same_chain slots slots' (N.to_nat (nth 2 req 0%N)) /\ same_key slots slots' (N.to_nat (nth 2 req 0%N))) ->
  challenge_handle_msg s slots rnd req c = challenge_handle_msg s slots' rnd req c.
Proof.
  intros P SK. unfold challenge_handle_msg. apply reset_same. intros _.
  apply bind_ext. intros u c1 E0. unfold lift in E0. injection E0 as E0 _. apply expect_true in E0. destruct (SK E0) as [S K]. cbv zeta. apply bind_ext. intros ds c2 _. apply bind_ext. intros ss c3 _.
  apply bind_ext. intros body c4 EB. apply bind_ext. intros m c5 EM.
  assert (X : nth 2 req 0%N = ch_slot m).
  { unfold lift in EB. destruct (body_of req) as [b|e|p] eqn:E1; try discriminate. injection EB as -> <-.
    unfold map_err, lift in EM. destruct (challenge_parse_body body) as [m'|e|p] eqn:EP; try discriminate. injection EM as -> <-.
    apply challenge_slot_byte in EP. exact (body_first _ _ E1 _ EP). }
  rewrite X in S, K. unfold same_chain, slot_chain in S. unfold same_key, slot_key in K. unfold slot_get. rewrite (mask_places _ _ P).
  destruct (nth_error slots (N.to_nat (ch_slot m))) as [[x|]|], (nth_error slots' (N.to_nat (ch_slot m))) as [[y|]|]; try discriminate; try reflexivity.
  destruct x as [a1 h1 ch1 k1], y as [a2 h2 ch2 k2]. cbn [fs_chain] in S. cbn [fs_signer] in K. injection S as ->. injection K as ->. reflexivity.
Qed.

Lemma dispatch_slot i st slots slots' rnd req rsp c : only_slot i (CallHandle rnd req rsp) ->
  same_places slots slots' -> same_chain slots slots' (N.to_nat i) -> same_key slots slots' (N.to_nat i) ->
  rsp_dispatch st slots rnd req c = rsp_dispatch st slots' rnd req c.
Proof.
  intros [N81 HI] P S K. destruct st as [| | | |s|s]; try reflexivity.
  - cbn [rsp_dispatch]. unfold id_auth_handle_msg. apply reset_same. intros _. apply bind_ext. intros [|] c1 E1.
    { exfalso. apply N81. unfold map_err, lift in E1. destruct (parse_header GetDigests_id req) as [[|]|e|p] eqn:E; try discriminate.
      exact (header_true _ _ E). }
    apply bind_ext. intros u c2 E2. unfold lift in E2. injection E2 as E2 _. apply certificate_same; [apply P|].
    rewrite HI; [exact S|]. left. symmetry. exact (expect_true _ _ _ E2).
  - cbn [rsp_dispatch]. apply challenge_same; [exact P|]. intros E. rewrite HI; [auto|]. rewrite E. right; left; reflexivity.
Qed.
Lemma dispatch_chains st slots slots' rnd req c : code req <> 0x83%N -> length slots = length slots' -> (forall i, same_chain slots slots' i) ->
  rsp_dispatch st slots rnd req c = rsp_dispatch st slots' rnd req c.
Proof.
  intros N83 L S. destruct st as [| | | |s|s]; try reflexivity; cbn [rsp_dispatch].
  - now rewrite (all_chains _ _ L S).
  - apply challenge_same; [|intros E; contradiction]. split; [exact L|]. intros i. specialize (S i). unfold same_chain, slot_chain in S. unfold filled.
    destruct (nth_error slots i) as [[x|]|], (nth_error slots' i) as [[y|]|]; try discriminate; split; intros [z Z]; try discriminate; eauto.
Qed.
Lemma dispatch_none st slots slots' rnd req c : ~ In (code req) [0x81; 0x82; 0x83]%N ->
  rsp_dispatch st slots rnd req c = rsp_dispatch st slots' rnd req c.
Proof.
  intros NI. destruct st as [| | | |s|s]; try reflexivity; cbn [rsp_dispatch].
  - unfold id_auth_handle_msg. apply reset_same. intros _. apply bind_ext. intros [|] c1 E1.
    { exfalso. apply NI. left. unfold map_err, lift in E1. destruct (parse_header GetDigests_id req) as [[|]|e|p] eqn:E; try discriminate.
      symmetry. exact (header_true _ _ E). }
    apply bind_ext. intros u c2 E2. unfold lift in E2. injection E2 as E2 _. exfalso. apply NI. right. left. symmetry. exact (expect_true _ _ _ E2).
  - unfold challenge_handle_msg. apply reset_same. intros _. apply bind_ext. intros u c2 E2. unfold lift in E2. injection E2 as E2 _.
    exfalso. apply NI. right. right. left. symmetry. exact (expect_true _ _ _ E2).
Qed.

(** * Histories *)
(** The same apart from the slots. *)
Definition twin slots slots' (R R' : Responder) : Prop :=
  rsp_slots R = slots /\ rsp_slots R' = slots' /\ rsp_state R = rsp_state R' /\ rsp_transcript R = rsp_transcript R'.
Lemma twin_call slots slots' R R' rnd req rsp : twin slots slots' R R' ->
  (forall st c, rsp_dispatch st slots rnd req c = rsp_dispatch st slots' rnd req c) ->
  fst (responder_handle_msg R rnd req rsp) = fst (responder_handle_msg R' rnd req rsp) /\
  twin slots slots' (snd (responder_handle_msg R rnd req rsp)) (snd (responder_handle_msg R' rnd req rsp)).
Proof.
  intros (E1 & E2 & E3 & E4) HD. unfold responder_handle_msg. rewrite <- E3, <- E4, E1, E2. destruct (rsp_state R) as [st|] eqn:ES.
  2: { split; [reflexivity|]. repeat split; auto. cbn. congruence. }
  rewrite HD. destruct (rsp_dispatch st slots' rnd req (mkCtx rsp (rsp_transcript R))) as [r c]. destruct (rsp_finish r (c_rsp c)) as [[reply rsp'] st'].
  split; [reflexivity|]. repeat split.
Qed.
Lemma twin_run (ok : call -> Prop) slots slots' :
  (forall rnd req rsp, ok (CallHandle rnd req rsp) -> forall st c, rsp_dispatch st slots rnd req c = rsp_dispatch st slots' rnd req c) ->
  forall calls R R', twin slots slots' R R' -> Forall ok calls ->
  observed R calls = observed R' calls /\ twin slots slots' (after R calls) (after R' calls).
Proof.
  intros HD. induction calls as [|[rnd req rsp|] calls IH]; intros R R' T F; [split; [reflexivity|exact T]| |]; apply Forall_cons_iff in F as [F0 F].
  - destruct (twin_call _ _ _ _ rnd req rsp T (HD _ _ _ F0)) as [E T']. unfold after. cbn [observed fold_left after_call].
    destruct (responder_handle_msg R rnd req rsp) as [[a b] R1], (responder_handle_msg R' rnd req rsp) as [[a' b'] R1']. cbn [fst snd] in *. injection E as <- <-.
    destruct (IH R1 R1' T' F) as [E2 T2]. split; [f_equal; exact E2|exact T2].
  - unfold after. cbn [observed fold_left after_call]. apply IH; [|exact F]. destruct T as (E1 & E2 & E3 & E4). unfold responder_reset. repeat split; cbn; congruence.
Qed.
Lemma twin_new slots slots' : twin slots slots' (responder_new slots) (responder_new slots').
Proof. repeat split. Qed.

(** A client that only asks about slot [i] cannot tell what the other filled
    slots contain: whatever history of calls, every reply, error, panic and
    buffer is the same, and so is what the responder remembers. *)
Theorem C60_slot_isolation slots slots' i calls : same_places slots slots' ->
  same_chain slots slots' (N.to_nat i) -> same_key slots slots' (N.to_nat i) -> Forall (only_slot i) calls ->
  observed (responder_new slots) calls = observed (responder_new slots') calls /\
  rsp_state (after (responder_new slots) calls) = rsp_state (after (responder_new slots') calls) /\
  t_get (rsp_transcript (after (responder_new slots) calls)) = t_get (rsp_transcript (after (responder_new slots') calls)).
Proof.
  intros P S K F. destruct (twin_run (only_slot i) slots slots' ltac:(intros; eapply dispatch_slot; eauto) calls _ _ (twin_new slots slots') F) as [E (_ & _ & A & B)].
  rewrite B. auto.
Qed.
(** Signing keys (and anything else stored beside the chains) matter to CHALLENGE
    only. *)
Theorem C60_keys_only_for_challenge slots slots' calls : length slots = length slots' -> (forall i, same_chain slots slots' i) ->
  Forall (avoids [0x83]%N) calls ->
  observed (responder_new slots) calls = observed (responder_new slots') calls /\
  rsp_state (after (responder_new slots) calls) = rsp_state (after (responder_new slots') calls) /\
  t_get (rsp_transcript (after (responder_new slots) calls)) = t_get (rsp_transcript (after (responder_new slots') calls)).
Proof.
  intros L S F.
  destruct (twin_run (avoids [0x83]%N) slots slots' ltac:(intros rnd req rsp A st c; apply dispatch_chains; auto; intros E; apply A; left; auto) calls _ _ (twin_new slots slots') F) as [E (_ & _ & A & B)].
  rewrite B. auto.
Qed.
(** Until one of GET_DIGESTS, GET_CERTIFICATE and CHALLENGE is sent the slots
    do not matter at all. *)
Theorem C60_negotiation_ignores_slots slots slots' calls : Forall (avoids [0x81; 0x82; 0x83]%N) calls ->
  observed (responder_new slots) calls = observed (responder_new slots') calls /\
  rsp_state (after (responder_new slots) calls) = rsp_state (after (responder_new slots') calls) /\
  t_get (rsp_transcript (after (responder_new slots) calls)) = t_get (rsp_transcript (after (responder_new slots') calls)).
Proof.
  intros F.
  destruct (twin_run (avoids [0x81; 0x82; 0x83]%N) slots slots' ltac:(intros rnd req rsp A st c; apply dispatch_none; exact A) calls _ _ (twin_new slots slots') F) as [E (_ & _ & A & B)].
  rewrite B. auto.
Qed.

(** * GET_DIGESTS *)
Lemma concat_part (f : nat -> list N) (p : nat -> bool) d n i : (forall j, p j = true -> length (f j) = d) -> p i = true -> i < n ->
  firstn d (skipn (d * length (filter p (seq 0 i))) (concat (map f (filter p (seq 0 n))))) = f i.
Proof.
  intros L Pi Hi. replace n with (i + S (n - S i)) by lia. rewrite seq_app, filter_app, map_app, concat_app. cbn [seq filter Nat.add]. rewrite Pi. cbn [map concat].
  assert (X : length (concat (map f (filter p (seq 0 i)))) = d * length (filter p (seq 0 i))).
  { generalize (seq 0 i) as l. induction l as [|x l IH]; cbn [filter]; [cbn; lia|]. destruct (p x) eqn:Px; [|exact IH]. cbn [map concat length]. rewrite app_length, IH, (L _ Px). lia. }
  rewrite skipn_app, <- X, skipn_all, Nat.sub_diag, app_nil_l. cbn [skipn]. rewrite <- (L _ Pi). apply firstn_app_exact. reflexivity.
Qed.
(** The part of DIGESTS about slot [i] is the digest of what that slot holds,
    whatever the other slots hold. *)
Theorem C60_digest_part slots R rnd req rsp out rsp' R' s i c : setting slots -> reached slots R -> bytes req -> rnd_ok rnd ->
  rsp_state R = Some (RspIdAuth s) -> code req = 0x81%N ->
  responder_handle_msg R rnd req rsp = (Replied out (Ok tt), rsp', R') ->
  slot_chain slots i = Some c ->
  digest_part slots (hash_len (al_base_hash (ri_algorithms s))) i out = sha (al_base_hash (ri_algorithms s)) (chain_bytes c).
Proof.
  intros HS HR HB RK ES HC HH HI. destruct (step_sound _ _ _ _ _ _ _ _ HS HR HB RK HH) as (st & st' & log' & E1 & _ & _ & SV & _).
  rewrite ES in E1. injection E1 as <-. inversion SV as [|s0 log0 ct flags own o0| |s0 log0 mask o0 SW L2 MK FIT OUT|s0 log0 sl off len o0 SW| ]; subst; try discriminate.
  - destruct H0 as [r ->]. discriminate.
  - set (h := al_base_hash (ri_algorithms s)) in *. destruct (FIT _ _ HI) as [_ (PR & S2 & _)]. destruct HS as (HL & H8 & HCn). destruct MK as [_ MK].
    assert (ME : forall j, slot_in_mask mask j = is_filled slots j).
    { intros j. specialize (MK j). unfold slot_chain in MK. unfold is_filled. destruct (nth_error slots j) as [[x|]|]; [apply MK; eauto| |];
      (destruct (slot_in_mask mask j); [|reflexivity]); exfalso; destruct MK as [MK _]; destruct (MK eq_refl); discriminate. }
    unfold digest_part, digests_layout. rewrite (filter_ext _ _ ME).
    change ([17; 1]%N ++ zeros 1 ++ [mask] ++ concat (map (slot_chain_digest h slots) (filter (is_filled slots) (seq 0 NUM_SLOTS))))
      with ([17; 1; 0; mask]%N ++ concat (map (slot_chain_digest h slots) (filter (is_filled slots) (seq 0 NUM_SLOTS)))).
    cbn [Nat.add app skipn]. rewrite concat_part.
    + unfold slot_chain_digest, slot_chain_bytes. now rewrite HI.
    + intros j _. apply HCn. exact S2.
    + unfold slot_chain in HI. unfold is_filled. destruct (nth_error slots i) as [[x|]|]; congruence.
    + rewrite <- HL. apply nth_error_Some. unfold slot_chain in HI. destruct (nth_error slots i); congruence.
  - destruct SW as [r ->]. discriminate.
Qed.
End PropSlots.

#[local] Existing Instance sample_cfg.
#[local] Existing Instance sample_crypto.
(** Slot 3 has another chain and a key that refuses to sign; the sample session
    for slot 0, without its GET_DIGESTS, is answered to the end. *)
Definition other_slots : list (option FilledSlot) :=
  [Some (sample_slot 5); None; None; Some (mkSlot 0x80 2 (sample_chain 9) (fun _ _ => Err tt)); None].
Definition slot0_calls : list call := map (fun req => CallHandle (sample_rnd 1) req big_buf)
  (map sample_request [0; 1; 2; 4; 5]).
Example C60_example : same_places sample_slots other_slots /\ same_chain sample_slots other_slots 0 /\ same_key sample_slots other_slots 0 /\
  ~ same_chain sample_slots other_slots 3 /\ Forall (only_slot 0) slot0_calls /\
  map (fun x => match fst x with Replied out (Ok tt) => length out | _ => 0 end) (observed (responder_new sample_slots) slot0_calls) = [10; 12; 52; 55; 170].
Proof.
  split. { split; [reflexivity|]. intros i. unfold filled. do 5 (destruct i as [|i]; [split; intros [x X]; cbn in *; try discriminate; eauto|]). split; intros [x X]; destruct i; discriminate. }
  split; [reflexivity|]. split; [reflexivity|]. split. { unfold same_chain, slot_chain. cbn. intros H. discriminate. }
  split. { repeat apply Forall_cons; try apply Forall_nil; (split; [discriminate|]); intros X; first [reflexivity | exfalso; vm_compute in X; destruct X as [X|[X|[]]]; discriminate X]. }
  vm_compute. reflexivity.
Qed.
(** Other keys, same chains; GET_DIGESTS and GET_CERTIFICATE are answered. *)
Definition rekeyed_slots : list (option FilledSlot) :=
  map (option_map (fun s => mkSlot 0x80 2 (fs_chain s) (fun _ _ => Err tt))) sample_slots.
Definition no_challenge_calls : list call := map (fun req => CallHandle (sample_rnd 1) req big_buf) (firstn 5 sample_requests).
Example C60_keys_example : length sample_slots = length rekeyed_slots /\ (forall i, same_chain sample_slots rekeyed_slots i) /\
  ~ same_key sample_slots rekeyed_slots 0 /\ Forall (avoids [0x83]%N) no_challenge_calls /\
  map (fun x => match fst x with Replied out (Ok tt) => length out | _ => 0 end) (observed (responder_new rekeyed_slots) no_challenge_calls) = [10; 12; 52; 68; 55].
Proof.
  split; [reflexivity|]. split. { intros i. unfold same_chain, slot_chain. do 5 (destruct i as [|i]; [reflexivity|]). destruct i; reflexivity. }
  split. { unfold same_key, slot_key. cbn. intros H. assert (X := f_equal (fun o => match o with Some f => f ([] : list N) ([] : list N) | None => Err tt end) H). discriminate X. }
  split. { repeat apply Forall_cons; try apply Forall_nil; (intros X; vm_compute in X; destruct X as [X|[]]; discriminate X). }
  vm_compute. reflexivity.
Qed.
(** Slot 3's part of the sample DIGESTS is its second digest. *)
Example C60_digest_example : slot_chain sample_slots 3 = Some (sample_chain 6) /\
  match responder_handle_msg (served_R (firstn 3 sample_requests)) (sample_rnd 1) (sample_request 3) big_buf with
  | (Replied out (Ok tt), _, _) => digest_part sample_slots 32 3 out = skipn 36 out /\ length out = 68
  | _ => False
  end.
Proof. split; [reflexivity|]. vm_compute. split; reflexivity. Qed.
