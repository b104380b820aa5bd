(** C11, C12, C13: DIGESTS, CERTIFICATE and certificate chains. *)
From Verif Require Import Base BaseLemmas Config Encoding MsgCommon MsgDigest MsgCertificates SpecWire
     WriterLogic ReaderLogic ReaderLoops GramBasic GramDigest GramCert PropTools Sample.

Section Props.
Context {cfg : Config}.

Definition write_get_digests := write_msg GetDigests_id (fun e => e) get_digests_write_body.
Definition write_digests_msg (m : Digests) := write_msg Digests_id (fun e => e) (digests_write_body m).
Definition write_get_certificate (m : GetCertificate) :=
  write_msg GetCertificate_id (fun e => e) (get_certificate_write_body m).
Definition write_certificate (m : Certificate) :=
  write_msg Certificate_id (fun e => e) (certificate_write_body m).

(** * C11 *)
Theorem C11_get_digests_write : writes_exactly write_get_digests (fun e => e = BufferFull) [0x11; 0x81; 0; 0]%N.
Proof. exact (writes_of GetDigests_id (fun e => e) _ (zeros 2) (emits_get_digests 2)). Qed.

Theorem C11_digests_write m size : NUM_SLOTS <= 8 -> is_byte (d_slot_mask m) -> digests_ok NUM_SLOTS size m ->
  writes_exactly (write_digests_msg m) (fun e => e = BufferFull)
    ([0x11; 0x01]%N ++ digests_layout NUM_SLOTS (d_slot_mask m) (slot_digest m)).
Proof.
  intros NS Hm (Hl & Hd).
  refine (writes_of Digests_id (fun e => e) _ _ (emits_digests NS m 2 Hm _)).
  intros i Hi Hs. destruct (Hd i Hi) as [H1 _]. destruct (H1 Hs) as (d & Hn & _). eauto.
Qed.
Theorem C11_digests_parse size : NUM_SLOTS <= 8 ->
  parses_exactly (digests_parse_body size)
    (fun bs m => digests_ok NUM_SLOTS size m /\ bs = digests_layout NUM_SLOTS (d_slot_mask m) (slot_digest m)).
Proof. intros NS. exact (parses_of _ _ _ (rspec_digests NS size)). Qed.
Theorem C11_digests_round_trip m size : NUM_SLOTS <= 8 -> is_byte (d_slot_mask m) -> digests_ok NUM_SLOTS size m ->
  (forall i d, nth_error (d_digests m) i = Some (Some d) -> bytes d) ->
  round_trips (write_digests_msg m) (digests_parse_body size) m.
Proof.
  intros NS Hm Hd Hb. eapply round_trips_of; [exact (C11_digests_write m size NS Hm Hd)|apply rspec_digests; auto| |cbv beta; auto].
  unfold digests_layout. bts. apply Forall_forall. intros i Hi. unfold slot_digest.
  destruct (nth_error (d_digests m) i) as [[d|]|] eqn:E; try constructor. eapply Hb; eauto.
Qed.

(** * C12 *)
Theorem C12_get_certificate_write m :
  writes_exactly (write_get_certificate m) (fun e => e = BufferFull)
    ([0x11; 0x82]%N ++ get_certificate_layout (gcert_slot m) (gcert_offset m) (gcert_length m)).
Proof. exact (writes_of GetCertificate_id (fun e => e) _ _ (emits_get_certificate m 2)). Qed.
Theorem C12_get_certificate_parse :
  parses_exactly get_certificate_parse_body
    (fun bs m => (gcert_offset m < 65536)%N /\ (gcert_length m < 65536)%N /\
                 bs = get_certificate_layout (gcert_slot m) (gcert_offset m) (gcert_length m)).
Proof. exact (parses_of _ _ _ rspec_get_certificate). Qed.
Theorem C12_get_certificate_round_trip m :
  is_byte (gcert_slot m) -> (gcert_offset m < 65536)%N -> (gcert_length m < 65536)%N ->
  round_trips (write_get_certificate m) get_certificate_parse_body m.
Proof.
  intros H1 H2 H3. eapply round_trips_of; [apply C12_get_certificate_write|apply rspec_get_certificate| |cbv beta; auto].
  unfold get_certificate_layout. bts.
Qed.

(** CERTIFICATE: the portion is the first [portion_length] bytes of the array. *)
Theorem C12_certificate_write m portion :
  firstn (length portion) (cert_chain m) = portion -> cert_portion_length m = N.of_nat (length portion) ->
  writes_exactly (write_certificate m) (fun e => e = BufferFull)
    ([0x11; 0x02]%N ++ certificate_layout (cert_slot m) portion (cert_remainder_length m)).
Proof. intros H1 H2. exact (writes_of Certificate_id (fun e => e) _ _ (emits_certificate m 2 portion H1 H2)). Qed.
Theorem C12_certificate_parse :
  parses_exactly certificate_parse_body
    (fun bs m => exists portion, certificate_has m portion /\
       bs = certificate_layout (cert_slot m) portion (cert_remainder_length m)).
Proof. exact (parses_of _ _ _ rspec_certificate). Qed.
Theorem C12_certificate_round_trip m portion :
  is_byte (cert_slot m) -> certificate_has m portion -> bytes portion ->
  round_trips (write_certificate m) certificate_parse_body m.
Proof.
  intros H1 H2 H3. pose proof H2 as (L1 & L2 & L3 & L4 & L5).
  eapply round_trips_of; [apply (C12_certificate_write m portion); auto|apply rspec_certificate| |cbv beta; eauto].
  - rewrite L5, firstn_app, Nat.sub_diag, firstn_all, firstn_O. apply app_nil_r.
  - unfold certificate_layout. bts.
Qed.
(** The two ways a portion length is refused. *)
Lemma rd_byte pre b inp : get_byte (rd pre (b :: inp) 0) = (Ok b, rd (pre ++ [b]) inp 0).
Proof.
  unfold get_byte, r_is_aligned, r_is_empty, r_index, rd, r_adv; simpl.
  rewrite !app_length; simpl. rewrite (proj2 (Nat.eqb_neq _ _)) by lia.
  rewrite nth_error_app2, Nat.sub_diag by lia. simpl. now rewrite <- app_assoc.
Qed.
Lemma rd_u16 pre a b inp : get_u16 (rd pre (a :: b :: inp) 0) = (Ok (a + 256 * b)%N, rd (pre ++ [a; b]) inp 0).
Proof.
  unfold get_u16, r_is_aligned, r_remaining, r_slice, slice, rd, r_adv; simpl.
  rewrite !app_length; simpl. rewrite (proj2 (Nat.ltb_ge _ _)) by lia. rewrite (proj2 (Nat.leb_le _ _)) by lia.
  rewrite skipn_app, Nat.sub_diag, skipn_all2 by lia. simpl.
  replace (length pre + 2 - length pre) with 2 by lia. simpl.
  replace (a + 256 * (b + 256 * 0))%N with (a + 256 * b)%N by lia. now rewrite <- app_assoc.
Qed.
Lemma rd_slice pre inp n k : n <= k ->
  fst (get_slice n k (rd pre inp 0)) = if length inp <? n then Err BufferEmpty else Ok (firstn n inp).
Proof.
  intros Hk. unfold get_slice, r_is_aligned, r_remaining, r_slice, slice, rd, r_adv; simpl.
  rewrite !app_length. replace (length pre + length inp - length pre) with (length inp) by lia.
  destruct (Nat.ltb_spec (length inp) n); [reflexivity|]. rewrite (proj2 (Nat.ltb_ge _ _)) by lia.
  rewrite (proj2 (Nat.leb_le _ _)) by lia. simpl.
  rewrite skipn_app, Nat.sub_diag, skipn_all2 by lia. simpl. now replace (length pre + n - length pre) with n by lia.
Qed.
Lemma cert_prefix slot lo hi r0 r1 data :
  certificate_parse_body (slot :: 0 :: lo :: hi :: r0 :: r1 :: data)%N =
  let n := N.to_nat (lo + 256 * hi) in
  if MAX_CERT_CHAIN_SIZE <? n then Err PCTooLarge
  else if length data <? n then Err (PCRead BufferEmpty)
  else Ok (mkCertificate slot (lo + 256 * hi) (r0 + 256 * r1)
             (firstn n data ++ zeros (MAX_CERT_CHAIN_SIZE - n))).
Proof.
  cbv zeta. unfold certificate_parse_body, run_parser, certificate_parse, skip_reserved, map_err, bind, ret, repeatM.
  rewrite rd_new, rd_byte. unfold bind, ret. rewrite rd_byte. change (negb (0 =? 0)%N) with false. cbv iota beta.
  rewrite rd_u16.
  destruct (Nat.ltb_spec MAX_CERT_CHAIN_SIZE (N.to_nat (lo + 256 * hi))) as [L|L]; [reflexivity|].
  rewrite rd_u16.
  pose proof (rd_slice (((([] ++ [slot]) ++ [0%N]) ++ [lo; hi]) ++ [r0; r1]) data (N.to_nat (lo + 256 * hi)) MAX_CERT_CHAIN_SIZE L) as E.
  destruct (get_slice _ _ _) as [r s]. simpl in E. subst r.
  destruct (Nat.ltb_spec (length data) (N.to_nat (lo + 256 * hi))); simpl; [reflexivity|].
  rewrite firstn_length. now replace (Nat.min _ _) with (N.to_nat (lo + 256 * hi)) by lia.
Qed.
Theorem C12_portion_length_refused slot lo hi r0 r1 data :
  let n := N.to_nat (lo + 256 * hi) in
  (MAX_CERT_CHAIN_SIZE < n -> certificate_parse_body (slot :: 0 :: lo :: hi :: r0 :: r1 :: data)%N = Err PCTooLarge) /\
  (length data < n <= MAX_CERT_CHAIN_SIZE ->
   certificate_parse_body (slot :: 0 :: lo :: hi :: r0 :: r1 :: data)%N = Err (PCRead BufferEmpty)).
Proof.
  cbv zeta. rewrite cert_prefix. cbv zeta. split; intros H.
  - rewrite (proj2 (Nat.ltb_lt _ _)) by lia. reflexivity.
  - rewrite (proj2 (Nat.ltb_ge _ _)) by lia. rewrite (proj2 (Nat.ltb_lt _ _)) by lia. reflexivity.
Qed.

(** * C13 *)
(** CertificateChain::new followed by append_intermediate_cert for each certificate. *)
Fixpoint append_all (c : CertificateChain) (inters : list (list N)) : res MaxCertChainDepthExceededError CertificateChain :=
  match inters with
  | [] => Ok c
  | i :: r => rbind (append_intermediate_cert c i) (fun c' => append_all c' r)
  end.
Definition build_chain (root_hash leaf : list N) (inters : list (list N)) :=
  append_all (chain_new root_hash leaf) inters.

Lemma append_all_spec inters : forall c,
  length (cc_intermediates c) <= MAX_CERT_CHAIN_DEPTH ->
  append_all c inters =
  if length (cc_intermediates c) + length inters <=? MAX_CERT_CHAIN_DEPTH
  then Ok (mkChain (cc_root_hash c) (cc_leaf_cert c) (cc_intermediates c ++ inters))
  else Err MaxCertChainDepthExceeded.
Proof.
  induction inters as [|i r IH]; intros c Hc; simpl.
  - rewrite Nat.add_0_r, (proj2 (Nat.leb_le _ _)) by lia. rewrite app_nil_r. now destruct c.
  - unfold append_intermediate_cert. destruct (Nat.eqb_spec (length (cc_intermediates c)) MAX_CERT_CHAIN_DEPTH) as [E|E]; simpl.
    + rewrite (proj2 (Nat.leb_gt _ _)) by lia. reflexivity.
    + rewrite IH by (simpl; rewrite app_length; simpl; lia). simpl. rewrite app_length. simpl.
      replace (length (cc_intermediates c) + 1 + length r) with (length (cc_intermediates c) + S (length r)) by lia.
      now rewrite <- app_assoc.
Qed.
(** Building succeeds exactly up to the configured depth. *)
Theorem C13_build root_hash leaf inters :
  (length inters <= MAX_CERT_CHAIN_DEPTH ->
   build_chain root_hash leaf inters = Ok (mkChain root_hash leaf inters)) /\
  (MAX_CERT_CHAIN_DEPTH < length inters -> build_chain root_hash leaf inters = Err MaxCertChainDepthExceeded).
Proof.
  unfold build_chain. rewrite append_all_spec by (simpl; lia). simpl. split; intros H.
  - now rewrite (proj2 (Nat.leb_le _ _)) by lia.
  - now rewrite (proj2 (Nat.leb_gt _ _)) by lia.
Qed.

(** Serialization, over a buffer of any size. *)
Theorem C13_chain_write root_hash leaf inters c :
  build_chain root_hash leaf inters = Ok c ->
  (N.of_nat (length (chain_layout root_hash inters leaf)) < 65536)%N ->
  writes_exactly (write_on (chain_write c)) (fun e => e = WCCBufferFull) (chain_layout root_hash inters leaf).
Proof.
  intros Hc HL.
  assert (c = mkChain root_hash leaf inters) as ->.
  { destruct (Nat.le_gt_cases (length inters) MAX_CERT_CHAIN_DEPTH) as [L|L];
    destruct (C13_build root_hash leaf inters) as [B1 B2]; [rewrite B1 in Hc by auto; now injection Hc|rewrite B2 in Hc by auto; discriminate]. }
  apply write_on_of. exact (emits_chain (mkChain root_hash leaf inters) 0 HL).
Qed.
Theorem C13_too_long c buf : (65535 < N.of_nat (length (chain_bytes c)))%N ->
  write_on (chain_write c) buf = (Err MaxSizeExceeded, buf).
Proof. intros H. unfold write_on. now rewrite chain_write_too_long. Qed.

(** Parsing accepts exactly the serializations of well-formed chains, so it
    gives the serialized chain back. *)
Theorem C13_chain_parse ds buf c : bytes buf ->
  chain_parse buf ds = Ok c <-> chain_ok ds c /\ (N.of_nat (length buf) < 65536)%N /\ buf = chain_bytes c.
Proof. intros Hb. apply (chain_parse_spec ds buf Hb). Qed.
Theorem C13_chain_round_trip root_hash leaf inters c buf n out :
  build_chain root_hash leaf inters = Ok c -> Forall der_framed inters -> der_framed leaf ->
  bytes root_hash -> bytes leaf -> Forall bytes inters ->
  write_on (chain_write c) buf = (Ok n, out) ->
  chain_parse (firstn n out) (length root_hash) = Ok c.
Proof.
  intros Hc Hi Hl B1 B2 B3 Hw.
  assert (c = mkChain root_hash leaf inters /\ length inters <= MAX_CERT_CHAIN_DEPTH) as [-> HD].
  { destruct (Nat.le_gt_cases (length inters) MAX_CERT_CHAIN_DEPTH) as [L|L];
    destruct (C13_build root_hash leaf inters) as [X1 X2]; [rewrite X1 in Hc by auto; now injection Hc|rewrite X2 in Hc by auto; discriminate]. }
  destruct (N.lt_ge_cases 65535 (N.of_nat (length (chain_bytes (mkChain root_hash leaf inters))))) as [L|L].
  { rewrite C13_too_long in Hw by auto. discriminate. }
  assert (HL : (N.of_nat (length (chain_layout root_hash inters leaf)) < 65536)%N) by (unfold chain_bytes in L; cbn [cc_root_hash cc_leaf_cert cc_intermediates] in L; lia).
  destruct (writes_inv _ _ _ _ _ _ (C13_chain_write root_hash leaf inters _ Hc HL) Hw) as (-> & HB & ->).
  rewrite firstn_app, Nat.sub_diag, firstn_all, firstn_O, app_nil_r.
  apply C13_chain_parse.
  - unfold chain_layout. bts. now apply bytes_concat.
  - repeat split; auto.
Qed.
End Props.

#[local] Existing Instance sample_cfg.
Example C11_nonvacuous :
  let m := mkDigests 5 [Some [1; 2]%N; None; Some [3; 4]%N; None; None] in
  digests_ok NUM_SLOTS 2 m /\
  digests_parse_body 2 [0; 5; 1; 2; 3; 4; 77]%N = Ok m /\
  write_digests_msg m (repeat 9%N 9) = (Ok 8, [0x11; 0x01; 0; 5; 1; 2; 3; 4; 9]%N).
Proof.
  cbv zeta. split; [|split; vm_compute; reflexivity].
  split; [reflexivity|]. intros i Hi. destruct i as [|[|[|[|[|i]]]]]; simpl;
    try (split; intros H; try discriminate H; eauto; fail). simpl in Hi; lia.
Qed.
Example C12_nonvacuous : certificate_has (mkCertificate 3 2 0 ([7; 8]%N ++ zeros 1022)) [7; 8]%N.
Proof. repeat split; simpl; lia. Qed.
Definition sample_leaf : list N := [0x30; 2; 5; 6]%N.
Definition sample_inter : list N := [0x30; 3; 2; 1; 9]%N.
Example C13_nonvacuous :
  der_framed sample_leaf /\ der_framed sample_inter /\
  build_chain [1; 2; 3; 4]%N sample_leaf [sample_inter; sample_inter] =
    Ok (mkChain [1; 2; 3; 4]%N sample_leaf [sample_inter; sample_inter]) /\
  chain_parse (chain_layout [1; 2; 3; 4]%N [sample_inter; sample_inter] sample_leaf) 4 =
    Ok (mkChain [1; 2; 3; 4]%N sample_leaf [sample_inter; sample_inter]).
Proof.
  repeat split.
  - exists [5; 6]%N. split; [reflexivity|reflexivity].
  - exists [2; 1; 9]%N. split; [reflexivity|reflexivity].
Qed.
Print Assumptions C11_digests_round_trip.
Print Assumptions C13_chain_round_trip.
