(** Writers and parsers of GET_MEASUREMENTS and MEASUREMENTS. *)
From Verif Require Import Base BaseLemmas Config Encoding MsgCommon MsgAlgorithms MsgChallenge MsgMeasurements
     WriterLogic ReaderLogic ReaderBits ReaderLoops SpecWire GramBasic GramOpaque GramChal.

Lemma rspec_span' {E A B} (m : M Reader E A) (k : nat -> A -> M Reader E B) P Q :
  rspec 0 m P never -> (forall n a, rspec 0 (k n a) (Q n a) never) ->
  rspec 0 (offset <- gets r_byte ;; a <- m ;; now <- gets r_byte ;; k (now - offset) a)
    (fun bs b => exists b1 b2 a, bs = b1 ++ b2 /\ P b1 a /\ Q (length b1) a b2 b) never.
Proof.
  intros H1 H2. eapply rspec_weaken; [exact (rspec_span m k P never Q (fun _ _ => never) H1 H2)|reflexivity|].
  unfold never. intros; cbv beta. firstorder.
Qed.

Section Gram.
Context {cfg : Config}.

(** ** Measurement indexes *)
Lemma mi_of_code b i : is_byte b -> mi_of_u8 b = i <-> index_ok i /\ b = index_code i.
Proof.
  unfold mi_of_u8, is_byte. intros Hb. split.
  - intros <-. repeat match goal with |- context [if ?c then _ else _] => destruct c eqn:? end; simpl; try lia; split; try lia; auto.
  - intros [H ->]. destruct i; simpl in *; auto;
    repeat match goal with |- context [if ?c then _ else _] => destruct c eqn:? end; auto; lia.
Qed.
Lemma mi_write_ok i : index_ok i -> mi_to_u8 i = Ok (index_code i).
Proof.
  destruct i; simpl; intros H; auto;
  match goal with |- context [if ?c then _ else _] => destruct c eqn:? end; auto; lia.
Qed.
Lemma mi_write_bad i : ~ index_ok i -> exists e, mi_to_u8 i = Err e.
Proof.
  destruct i; simpl; intros H; try tauto;
  match goal with |- context [if ?c then _ else _] => destruct c eqn:? end; eauto; lia.
Qed.


Lemma emits_get_measurements m o :
  index_ok (gm_index m) -> (ra_signature_requested (gm_attributes m) = true -> gm_nonce m <> None) ->
  let bs := get_measurements_layout m in
  emits o (get_measurements_write_body m) WGMBufferFull bs (o + length bs).
Proof.
  intros Hi Hn. cbv zeta. unfold get_measurements_write_body, get_measurements_layout. rewrite (mi_write_ok _ Hi).
  assert (Hra : ra_to_u8 (gm_attributes m) = (bit (ra_signature_requested (gm_attributes m)) + 2 * bit (ra_raw_bit_stream_requested (gm_attributes m)))%N)
    by (destruct (gm_attributes m) as [[] []]; reflexivity).
  rewrite Hra. destruct (ra_signature_requested (gm_attributes m)).
  - destruct (gm_nonce m) as [n|]; [|exfalso; now apply Hn].
    eapply emits_eq.
    + eapply emits_bind; [emits_go|]. eapply emits_bind; [apply emits_lift_map; reflexivity|]. cbv beta.
      eapply emits_bind; [emits_go|]. eapply emits_bind; [|emits_go].
      eapply emits_bind; [apply emits_lift; reflexivity|]. emits_go.
    + rewrite <- ?app_assoc. simpl. rewrite <- ?app_assoc. reflexivity.
    + rewrite !app_length. simpl. rewrite ?app_length. simpl. lia.
  - eapply emits_eq.
    + eapply emits_bind; [emits_go|]. eapply emits_bind; [apply emits_lift_map; reflexivity|]. cbv beta. emits_go.
    + reflexivity.
    + simpl. lia.
Qed.

Lemma byte_split_116 b : is_byte b -> field b 2 6 = 0%N ->
  b = (bit (field b 0 1 =? 1) + 2 * bit (field b 1 1 =? 1))%N.
Proof.
  intros H H0. assert (A : forallb (fun k => let b := N.of_nat k in
     implb (field b 2 6 =? 0) (b =? bit (field b 0 1 =? 1) + 2 * bit (field b 1 1 =? 1)))%N (seq 0 256) = true)
    by (vm_compute; reflexivity).
  rewrite forallb_forall in A. specialize (A (N.to_nat b)). unfold is_byte in H.
  rewrite in_seq, N2Nat.id in A. specialize (A ltac:(lia)). cbv zeta in A. rewrite H0 in A. simpl implb in A.
  now apply N.eqb_eq in A.
Qed.
Lemma byte_join_116 s r : (field (bit s + 2 * bit r) 0 1 =? 1)%N = s /\ (field (bit s + 2 * bit r) 1 1 =? 1)%N = r /\
  field (bit s + 2 * bit r) 2 6 = 0%N.
Proof. destruct s, r; vm_compute; auto. Qed.

Lemma rspec_get_measurements :
  rspec 0 get_measurements_parse (fun bs m => gm_ok m /\ bs = get_measurements_layout m) never.
Proof.
  unfold get_measurements_parse, get_bit. cbv zeta.
  eapply rspec_weaken with (P := fun bs m => exists b i t, bs = [b] ++ [i] ++ t /\ field b 2 6 = 0%N /\
      let a := mkRA (field b 0 1 =? 1)%N (field b 1 1 =? 1)%N in
      if ra_signature_requested a then exists n s, t = n ++ [s] /\ nonce_ok n /\ N.to_nat s < NUM_SLOTS /\ m = mkGM a (mi_of_u8 i) (Some n) s
      else t = [] /\ m = mkGM a (mi_of_u8 i) None 0).
  - eapply rspec_weaken.
    + eapply rspec_bits_bind'; [lia|lia|intros b0 _; simpl Nat.add].
      eapply rspec_bits_bind'; [lia|lia|intros b1 _; simpl Nat.add].
      eapply rspec_bind'; [rgo|intros rsvd ? _ _].
      eapply rspec_if_err'; intros Hr.
      eapply rspec_bind'; [rgo|intros i ? _ _].
      instantiate (1 := fun i b2 m => let a := mkRA (b0 =? 1)%N (b1 =? 1)%N in
       if ra_signature_requested a then exists n s, b2 = n ++ [s] /\ nonce_ok n /\ N.to_nat s < NUM_SLOTS /\ m = mkGM a (mi_of_u8 i) (Some n) s
       else b2 = [] /\ m = mkGM a (mi_of_u8 i) None 0). cbv beta zeta.
      destruct (ra_signature_requested (mkRA (b0 =? 1)%N (b1 =? 1)%N)).
      * eapply rspec_weaken; [rgo; apply rspec_nonce| |reflexivity]. intros bs' m _; cbv beta. split.
        -- intros; gfwd. bools. eexists _, _. rewrite app_nil_r. split; [reflexivity|]. auto.
        -- intros (n & s & -> & Hn & Hs & ->). eexists _, _, _. split; [reflexivity|]. split; [auto|].
           eexists [_], [], _. split; [reflexivity|]. split; [reflexivity|]. split; [apply Nat.leb_gt; lia|]. auto.
      * apply rspec_ret.
    + intros bs m Hb; cbv beta. split.
      * intros (b & t & Ebs & b' & t' & Ebs' & ? & ? & b7 & E3 & (b'' & -> & ->) & Hr & ? & ? & i & -> & -> & H).
        rewrite Ebs in Ebs'. injection Ebs' as <- <-. rewrite E3 in Ebs. injection Ebs as -> _. bools.
        exists b, i, x1. split; [exact E3|]. split; [exact Hr|]. exact H.
      * intros (b & i & t & -> & Hr & H).
        eexists _, _. split; [reflexivity|]. eexists _, _. split; [reflexivity|].
        eexists [_], _, _. split; [reflexivity|]. split; [eexists; split; reflexivity|].
        split; [rewrite Hr; reflexivity|]. eexists [_], _, _. split; [reflexivity|]. split; [reflexivity|]. exact H.
    + reflexivity.
  - intros bs m Hb; cbv beta zeta. split.
    + intros (b & i & t & -> & Hr & H). inversion Hb as [|? ? Hx Hb']; subst. inversion Hb' as [|? ? Hi Ht]; subst.
      destruct (proj1 (mi_of_code i _ Hi) eq_refl) as [I1 I2]. rewrite (byte_split_116 b Hx Hr) at 1.
      cbn [ra_signature_requested] in H. destruct (field b 0 1 =? 1)%N.
      * destruct H as (n & s & -> & Hn & Hs & ->). unfold gm_ok, get_measurements_layout; cbn [gm_index gm_attributes gm_nonce gm_slot_id ra_signature_requested ra_raw_bit_stream_requested].
        rewrite <- I2. split; [|reflexivity]. split; [auto|]. split; [auto|]. eauto.
      * destruct H as [-> ->]. unfold gm_ok, get_measurements_layout; cbn [gm_index gm_attributes gm_nonce gm_slot_id ra_signature_requested ra_raw_bit_stream_requested].
        rewrite <- I2. split; [|reflexivity]. auto.
    + destruct m as [[s r] i n sl]. unfold gm_ok, get_measurements_layout; cbn [gm_index gm_attributes gm_nonce gm_slot_id ra_signature_requested ra_raw_bit_stream_requested].
      intros [[Hi H] ->]. destruct (byte_join_116 s r) as (B1 & B2 & B3).
      eexists _, _, _. split; [reflexivity|]. split; [exact B3|]. rewrite B1, B2.
      assert (Hib : is_byte (index_code i)) by (destruct i; simpl in Hi; unfold is_byte; simpl; lia).
      assert (Hmi : mi_of_u8 (index_code i) = i) by (apply mi_of_code; auto). rewrite Hmi.
      destruct s.
      * destruct H as (Hs & n' & -> & Hn). eauto 8.
      * destruct H as [-> ->]. auto.
  - reflexivity.
Qed.

Lemma byte_land b r t : is_byte b ->
  (vt_of_u8 (N.land b 0x7f) = Some t /\ repr_of_u8 (N.land b 0x80) = Some r) <-> b = (repr_bit r + value_type_code t)%N.
Proof.
  intros Hb. split.
  - intros [H1 H2].
    assert (E1 : N.land b 0x7f = value_type_code t).
    { unfold vt_of_u8 in H1. repeat match type of H1 with context [match ?x with _ => _ end] => destruct x; try discriminate end; injection H1 as <-; reflexivity. }
    assert (E2 : N.land b 0x80 = repr_bit r).
    { unfold repr_of_u8 in H2. repeat match type of H2 with context [match ?x with _ => _ end] => destruct x; try discriminate end; injection H2 as <-; reflexivity. }
    rewrite <- E1, <- E2.
    assert (A : forallb (fun k => let b := N.of_nat k in (b =? N.land b 128 + N.land b 127))%N (seq 0 256) = true)
      by (vm_compute; reflexivity).
    rewrite forallb_forall in A. specialize (A (N.to_nat b)). unfold is_byte in Hb.
    rewrite in_seq, N2Nat.id in A. specialize (A ltac:(lia)). now apply N.eqb_eq in A.
  - intros ->. destruct r, t; split; reflexivity.
Qed.
Lemma dm_first_byte r t : N.lor (repr_to_u8 r) (vt_to_u8 t) = (repr_bit r + value_type_code t)%N.
Proof. destruct r, t; reflexivity. Qed.

Lemma rspec_dm : rspec 0 dm_read (fun bs m => dm_ok m /\ bs = dmtf_bytes m) never.
Proof.
  unfold dm_read. eapply rspec_weaken.
  - eapply rspec_bind'; [rgo|intros v ? _ _]. eapply rspec_opt_bind; intros t Ht. eapply rspec_opt_bind; intros r Hr.
    eapply rspec_bind'; [rgo|intros sz ? _ _].
    eapply rspec_bind' with (P := fun bs v => bs = value_bytes v /\ length bs = N.to_nat sz /\
       match r, v with ReprDigest, MVDigest d => length d <= MAX_DIGEST_SIZE
                     | ReprRawBitStream, MVBitStream b => length b <= MAX_MEASUREMENT_SIZE | _, _ => False end).
    + destruct r.
      * destruct (Nat.leb_spec (N.to_nat sz) MAX_DIGEST_SIZE).
        -- eapply rspec_weaken; [eapply rspec_bind'; [apply rspec_map_err, rspec_digest_read|intros; apply rspec_ret]| |reflexivity].
           intros bs' x _; cbv beta. split.
           ++ intros; gfwd. rewrite app_nil_r. simpl. repeat split; auto; lia.
           ++ intros (-> & Hl & Hx). destruct x; [|tauto]. exists d, [], d. simpl in *. rewrite app_nil_r. auto.
        -- eapply rspec_weaken; [apply rspec_err| |reflexivity]. intros bs' x _. split; [tauto|].
           intros (-> & Hl & Hx). destruct x; [simpl in *; lia|tauto].
      * unfold bitstream_read. eapply rspec_weaken; [eapply rspec_bind'; [apply rspec_map_err; eapply rspec_if_err'; intros Hs; bools; apply rspec_map_err, rspec_get_slice'; exact Hs|intros; apply rspec_ret]| |reflexivity].
        intros bs' x _; cbv beta. split.
        -- intros; gfwd. bools. rewrite app_nil_r. simpl. repeat split; auto; lia.
        -- intros (-> & Hl & Hx). destruct x; [tauto|]. exists b, [], b. simpl in *. rewrite app_nil_r.
           split; auto. split; auto. split; auto. apply Nat.ltb_ge. lia.
    + intros; apply rspec_ret.
  - intros bs m Hb; cbv beta. split.
    + intros; gfwd. inversion Hb as [|? ? Hx Hb']; subst.
      match goal with H : vt_of_u8 _ = Some ?t, H' : repr_of_u8 _ = Some ?r |- _ => pose proof (proj1 (byte_land _ r t Hx) (conj H H')) as EB; subst end.
      match goal with H : length (value_bytes ?v) = N.to_nat ?n |- _ => assert (n = N.of_nat (length (value_bytes v))) by lia; subst n end.
      rewrite app_nil_r. split; [|reflexivity]. unfold dm_ok; cbn [dm_representation dm_value].
      destruct x3, x9; simpl in *; try tauto; auto.
    + destruct m as [r t v]. unfold dm_ok, dmtf_bytes; cbn [dm_representation dm_value dm_type]. intros [H ->].
      gnil. eexists [_], _, _. split; [reflexivity|]. split; [reflexivity|].
      assert (Hx : is_byte (repr_bit r + value_type_code t)) by (destruct r, t; unfold is_byte; simpl; lia).
      destruct (proj2 (byte_land _ r t Hx) eq_refl) as [E1 E2].
      exists t. split; [auto|]. exists r. split; [auto|].
      eexists (u16le _), _, _. split; [reflexivity|]. split; [split; [reflexivity|]|].
      { destruct r, v; simpl; tauto. }
      eexists _, _, v. split; [reflexivity|]. split; [|auto]. rewrite Nat2N.id. split; auto. split; auto.
      destruct r, v; simpl; tauto.
  - reflexivity.
Qed.
Lemma emits_dm m o : (N.of_nat (length (value_bytes (dm_value m))) < 65536)%N ->
  emits o (dm_write m) BufferFull (dmtf_bytes m) (o + length (dmtf_bytes m)).
Proof.
  intros H. unfold dm_write, try_u16. replace (mv_len (dm_value m)) with (length (value_bytes (dm_value m))) by (destruct (dm_value m); reflexivity).
  rewrite (proj2 (N.ltb_lt _ _) H). rewrite dm_first_byte.
  assert (Hv : forall o, emits o (mv_write (dm_value m)) BufferFull (value_bytes (dm_value m)) (o + length (value_bytes (dm_value m))))
    by (intros; destruct (dm_value m); apply emits_extend).
  eapply emits_eq; [eapply emits_bind; [emits_go|]; eapply emits_bind; [apply emits_lift; reflexivity|]; eapply emits_bind; [emits_go|apply Hv]| |].
  - reflexivity.
  - unfold dmtf_bytes. rewrite !app_length. simpl. lia.
Qed.

Lemma rspec_mb : rspec 0 mb_read (fun bs b => mb_ok b /\ bs = block_bytes b) never.
Proof.
  unfold mb_read. eapply rspec_weaken.
  - eapply rspec_bind'; [rgo|intros i ? _ _]. eapply rspec_bind'; [rgo|intros sp ? _ _].
    eapply rspec_if_err'; intros Hsp. eapply rspec_bind'; [rgo|intros sz ? _ _].
    apply (rspec_span' (map_err PMBMeasurement dm_read)
       (fun n a => if negb (N.to_nat sz =? n) then err PMBMeasurementSizeMismatch else ret (mkMB i MeasurementSpec_DMTF a)));
      [apply rspec_map_err, rspec_dm|intros n a; apply rspec_if_err'; intros; apply rspec_ret].
  - intros bs b Hb; cbv beta. split.
    + intros; gfwd. bools.
      match goal with H : N.to_nat ?n = length _ |- _ => assert (n = N.of_nat (length (dmtf_bytes x10))) by lia; subst n end.
      rewrite app_nil_r. unfold mb_ok, block_bytes; cbn [mb_index mb_spec mb_measurement]. subst. split; [auto|reflexivity].
    + destruct b as [i sp m]. unfold mb_ok, block_bytes; cbn [mb_index mb_spec mb_measurement]. intros ((-> & H1 & H2) & ->).
      gnil. eexists [_], _, _. split; [reflexivity|]. split; [reflexivity|].
      eexists [_], _, _. split; [reflexivity|]. split; [reflexivity|]. split; [reflexivity|].
      eexists (u16le _), _, _. split; [reflexivity|]. split; [split; [reflexivity|exact H2]|].
      eexists _, _, m. split; [reflexivity|]. split; [auto|]. rewrite Nat2N.id. split; [rewrite Nat.eqb_refl; reflexivity|]. auto.
  - reflexivity.
Qed.
Lemma emits_mb b o : (N.of_nat (length (dmtf_bytes (mb_measurement b))) < 65536)%N ->
  emits o (mb_write b) BufferFull (block_bytes b) (o + length (block_bytes b)).
Proof.
  intros H.
  assert (L : length (dmtf_bytes (mb_measurement b)) = 3 + length (value_bytes (dm_value (mb_measurement b))))
    by (unfold dmtf_bytes; rewrite !app_length; simpl; lia).
  unfold mb_write, dm_serialized_size, try_u16.
  replace (mv_len (dm_value (mb_measurement b))) with (length (value_bytes (dm_value (mb_measurement b)))) by (destruct (dm_value (mb_measurement b)); reflexivity).
  rewrite <- L. rewrite (proj2 (N.ltb_lt _ _) H).
  eapply emits_eq; [eapply emits_bind; [emits_go|]; eapply emits_bind; [emits_go|]; eapply emits_bind; [apply emits_lift; reflexivity|];
    eapply emits_bind; [emits_go|apply emits_dm; lia]| |].
  - reflexivity.
  - unfold block_bytes. rewrite !app_length. simpl. lia.
Qed.


Lemma seq_of_some bs ys : seq_of (fun b (x : option MeasurementBlock) => exists y, x = Some y /\ mb_ok y /\ b = block_bytes y) bs ys <->
  exists bl, ys = map Some bl /\ Forall mb_ok bl /\ bs = concat (map block_bytes bl).
Proof.
  split.
  - induction 1 as [|b x bs xs (y & -> & Hy & ->) _ (bl & -> & HF & ->)].
    + exists []. auto.
    + exists (y :: bl). simpl. auto.
  - intros (bl & -> & HF & ->). induction HF; cbn [map concat]; constructor; eauto.
Qed.

Lemma rspec_mbs : rspec 0 mbs_read
  (fun bs m => exists bl, mbs_has m bl /\ mbs_fits bl /\ Forall mb_ok bl /\ bs = blocks_bytes bl) mbs_overflow.
Proof.
  unfold mbs_read. eapply rspec_weaken.
  - eapply rspec_bindL; [rgo|intros n ? _ _]. eapply rspec_bindL; [rgo|intros size ? _ _].
    eapply rspec_if_err; intros Hsz.
    eapply (rspec_span (fill (N.to_nat n) 0 (mbs_blocks mbs_default) (b <- map_err PMBsBlock mb_read ;; ret (Some b)))
       (fun k blocks => if negb (N.to_nat size =? k) then err PMBsMeasurementSizeMismatch else ret (mkMBs (N.to_nat n) blocks))).
    + apply (rspec_fill_gen None (b <- map_err PMBsBlock mb_read ;; ret (Some b))
         (fun b x => exists y, x = Some y /\ mb_ok y /\ b = block_bytes y) never) with (xs := []) (extra := MAX_MEASUREMENT_BLOCKS).
      eapply rspec_weaken; [eapply rspec_bind'; [apply rspec_map_err, rspec_mb|intros; apply rspec_ret]| |reflexivity].
      intros bs1 x _; cbv beta. split.
      * intros; gfwd. rewrite app_nil_r. eauto.
      * intros (y & -> & Hy & ->). gnil. eexists _, _, y. eauto.
    + intros k a. apply rspec_if_err'; intros; apply rspec_ret.
  - intros bs m Hb; cbv beta. split.
    + intros (? & ? & n & -> & -> & ? & ? & size & -> & (-> & Hs1) & Hs2 & bs' & ? & a & -> & (ys & Hl & Hmax & Hs & ->) & He & -> & ->).
      apply seq_of_some in Hs as (bl & -> & HF & ->). rewrite map_length in *. bools.
      inversion Hb as [|? ? Hx _]; subst. unfold is_byte in Hx.
      assert (n = N.of_nat (length bl)) by lia. subst n. rewrite Nat2N.id in *.
      assert (size = record_len bl) by (unfold record_len; lia). subst size.
      exists bl. unfold mbs_has, mbs_fits, blocks_bytes. simpl. rewrite app_nil_r. repeat split; auto; lia.
    + destruct m as [len arr]. intros (bl & (H1 & H2 & H3) & (F1 & F2 & F3) & HF & ->). simpl in *. subst len arr.
      unfold blocks_bytes. gnil.
      eexists [_], _, _. split; [reflexivity|]. split; [reflexivity|].
      eexists (u24le _), _, _. split; [reflexivity|]. split; [split; [reflexivity|exact F2]|].
      split; [apply N.ltb_ge; exact F3|].
      eexists (concat (map block_bytes bl)), [], _. split; [reflexivity|]. rewrite !Nat2N.id. split.
      * exists (map Some bl). rewrite map_length. split; [auto|]. split; [auto|]. split; [apply seq_of_some; eauto|reflexivity].
      * split; [rewrite Nat.eqb_refl; reflexivity|]. auto.
  - intros inp Hb; cbv beta. split.
    + intros (? & ? & n & -> & -> & ? & ? & size & -> & (-> & Hs1) & Hs2 & [Hp|(? & ? & ? & _ & _ & [])]).
      destruct Hp as (bs & rest & ys & -> & Hs & H1 & H2 & [[]|(H3 & b & x & rest' & -> & y & -> & Hy & ->)]).
      apply seq_of_some in Hs as (bl & -> & HF & ->). rewrite map_length in *. bools.
      exists n, size, bl, y, rest'. split; [reflexivity|]. split; [auto|]. split; [auto|]. split; [auto|]. split; [auto|lia].
    + intros (n & size & bl & b & rest & -> & [S1 S2] & HF & Hb0 & Hl & Hn).
      eexists [_], _, _. split; [reflexivity|]. split; [reflexivity|].
      eexists (u24le _), _, size. split; [reflexivity|]. split; [split; [reflexivity|exact S1]|].
      split; [apply N.ltb_ge; exact S2|]. left.
      eexists _, (block_bytes b ++ rest), (map Some bl). split; [reflexivity|]. rewrite map_length.
      split; [apply seq_of_some; eauto|]. split; [lia|]. split; [lia|]. right. split; [auto|].
      eexists _, (Some b), rest. eauto 6.
Qed.

Lemma mbs_size_eq {E} m bl : mbs_has m bl -> @mbs_serialized_size E m = Ok (length (concat (map block_bytes bl))).
Proof.
  intros (H1 & H2 & H3). unfold mbs_serialized_size. rewrite H2, H3, app_length, map_length, repeat_length.
  destruct (Nat.leb_spec (length bl) (length bl + (MAX_MEASUREMENT_BLOCKS - length bl))); [|lia].
  rewrite firstn_app_exact by (now rewrite map_length).
  assert (G : forall k, fold_left (fun acc o => rbind acc (fun a =>
      match o with Some x => Ok (a + mb_serialized_size x) | None => Panic PUnwrap end)) (map Some bl) (@Ok E nat k) =
      Ok (k + length (concat (map block_bytes bl)))).
  { clear. induction bl as [|b bl IH]; intros k; cbn [map fold_left concat]; [simpl; f_equal; lia|].
    simpl rbind. rewrite IH, app_length. f_equal. unfold mb_serialized_size, dm_serialized_size, block_bytes, dmtf_bytes.
    rewrite !app_length. simpl. destruct (dm_value (mb_measurement b)); simpl; lia. }
  apply G.
Qed.
Lemma emits_mbs_loop bl : Forall (fun b => (N.of_nat (length (dmtf_bytes (mb_measurement b))) < 65536)%N) bl ->
  forall pre post o, emits o (mbs_write_loop (length bl) (length pre) (pre ++ map Some bl ++ post)) BufferFull (concat (map block_bytes bl)) tt.
Proof.
  induction 1 as [|b bl Hb HF IH]; intros pre post o; cbn [length mbs_write_loop map concat].
  - apply emits_ret.
  - rewrite nth_error_app2 by lia. rewrite Nat.sub_diag. cbn [app nth_error].
    eapply emits_bind; [apply emits_mb; auto|].
    specialize (IH (pre ++ [Some b]) post). rewrite app_length in IH. cbn [length] in IH.
    rewrite <- app_assoc in IH. replace (length pre + 1) with (S (length pre)) in IH by lia. apply IH.
Qed.
Lemma emits_mbs m bl o : mbs_has m bl -> (N.of_nat (length bl) < 256)%N ->
  Forall (fun b => (N.of_nat (length (dmtf_bytes (mb_measurement b))) < 65536)%N) bl ->
  emits o (mbs_write m) BufferFull (blocks_bytes bl) (o + length (blocks_bytes bl)).
Proof.
  intros Hh Hn HF. unfold mbs_write. rewrite (mbs_size_eq m bl Hh). destruct Hh as (H1 & H2 & H3). rewrite H2, H3.
  unfold try_u8. rewrite (proj2 (N.ltb_lt _ _) Hn).
  eapply emits_eq; [eapply emits_bind; [apply emits_lift; reflexivity|]; eapply emits_bind; [emits_go|];
    eapply emits_bind; [apply emits_lift; reflexivity|]; eapply emits_bind; [emits_go|];
    eapply emits_bind; [apply (emits_mbs_loop bl HF [])|emits_go]| |].
  - simpl. rewrite ?app_nil_r. reflexivity.
  - unfold blocks_bytes. rewrite !app_length, le_bytes_length. simpl. lia.
Qed.

(** ** The message *)
Definition meas_full (e : WriteMeasurementsError) : Prop := e = WMBufferFull \/ e = WMWriteOpaqueElement WOEBufferFull.
Lemma param2_eq m : (m_slot_id m < 16)%N ->
  m_param2 m = ((match m_signature m with Some _ => m_slot_id m | None => 0%N end) + 16 * content_changed_code (m_content_changed m) + 64 * 0)%N.
Proof.
  intros H. unfold m_param2. rewrite N.mul_0_r, N.add_0_r.
  assert (A : forall k, (k < 3)%N -> N.lor (16 * k) (m_slot_id m) = (m_slot_id m + 16 * k)%N).
  { intros k Hk. rewrite N.lor_comm. change (16 * k)%N with (2 ^ 4 * k)%N. rewrite (N.mul_comm (2^4)), <- N.shiftl_mul_pow2.
    rewrite lor_shift_add by exact H. rewrite N.shiftl_mul_pow2. lia. }
  destruct (m_signature m), (m_content_changed m); cbn [content_changed_code].
  - change (N.lor 0 (m_slot_id m)) with (N.lor (16 * 0) (m_slot_id m)). apply A; lia.
  - change (N.lor 0 (N.shiftl 1 4)) with (16 * 1)%N. apply A; lia.
  - change (N.lor 0 (N.shiftl 1 5)) with (16 * 2)%N. apply A; lia.
  - reflexivity.
  - reflexivity.
  - reflexivity.
Qed.

Lemma emits_measurements m bl o :
  mbs_has (m_blocks m) bl -> (N.of_nat (length bl) < 256)%N ->
  Forall (fun b => (N.of_nat (length (dmtf_bytes (mb_measurement b))) < 65536)%N) bl ->
  (m_slot_id m < 16)%N -> Forall vendor_matches (m_opaque_data m) ->
  (N.of_nat (length (opaque_bytes (m_opaque_data m))) < 65536)%N ->
  let bs := measurements_layout (m_total_blocks m)
              (match m_signature m with Some _ => m_slot_id m | None => 0%N end) (m_content_changed m) 0 bl
              (m_nonce m) (N.of_nat (length (opaque_bytes (m_opaque_data m)))) (m_opaque_data m) (sig_bytes (m_signature m)) in
  emitsS o (measurements_write_body m) meas_full bs (o + length bs).
Proof.
  intros Hh Hn HF Hs Hv Ho bs. unfold measurements_write_body. rewrite (param2_eq m Hs), od_size_eq by auto.
  unfold try_u16. rewrite (proj2 (N.ltb_lt _ _) Ho).
  assert (F1 : meas_full WMBufferFull) by (now left).
  eapply emitsS_eq.
  - do 2 (eapply emitsS_bind; [eapply emitsS_of; [emits_go|exact F1]|]).
    eapply emitsS_bind; [eapply emitsS_of; [eapply emits_map_err; [apply (emits_mbs _ bl); auto|reflexivity]|exact F1]|].
    eapply emitsS_bind; [eapply emitsS_of; [emits_go|exact F1]|].
    eapply emitsS_bind; [eapply emitsS_of; [apply emits_lift; reflexivity|exact F1]|].
    eapply emitsS_bind; [eapply emitsS_of; [emits_go|exact F1]|].
    eapply emitsS_bind; [eapply emitsS_of; [eapply emits_map_err; [apply emits_od; auto|reflexivity]|now right]|].
    eapply emitsS_of; [|exact F1]. eapply emits_bind with (bs1 := sig_bytes (m_signature m)) (a := tt).
    + destruct (m_signature m); simpl sig_bytes.
      * eapply emits_eq; [emits_go|apply app_nil_r|reflexivity].
      * apply emits_ret.
    + apply emits_offset.
  - unfold bs, measurements_layout. rewrite ?app_nil_r. reflexivity.
  - unfold bs, measurements_layout. rewrite !app_length, le_bytes_length. cbn [length].
    change (length (u16le (N.of_nat (length (opaque_bytes (m_opaque_data m)))))) with 2. lia.
Qed.

Lemma rspec_ignore_bits : rspec 6 (@ignore_result ReadError ParseMeasurementsError N (get_bits 2)) (fun bs _ => exists b, bs = [b]) never.
Proof.
  intros pre inp Hb Hne. unfold ignore_result, never. destruct inp as [|b t].
  - exfalso. apply Hne; auto; lia.
  - rewrite get_bits_rd by (auto; lia). destruct (Nat.ltb_spec (6 + 2) 8); [lia|]. rsplit.
    + intros bs rest a E1 (b' & ->). injection E1 as -> ->. destruct a. reflexivity.
    + intros a r [= <- <-]. exists [b], t. repeat split; [eauto|discriminate].
    + intros (p & r & [=]).
    + tauto.
Qed.

Lemma cc_of_code b c : cc_of_u8 b = Some c <-> b = content_changed_code c.
Proof.
  split.
  - intros H. unfold cc_of_u8 in H.
    repeat match type of H with context [match ?x with _ => _ end] => destruct x; try discriminate end;
      injection H as <-; reflexivity.
  - intros ->. destruct c; reflexivity.
Qed.
Lemma byte_split_422 b : is_byte b -> (field b 0 4 < 16 /\ field b 6 2 < 4 /\ b = field b 0 4 + 16 * field b 4 2 + 64 * field b 6 2)%N.
Proof.
  intros H. assert (A : forallb (fun k => let b := N.of_nat k in
     (field b 0 4 <? 16) && (field b 6 2 <? 4) && (b =? field b 0 4 + 16 * field b 4 2 + 64 * field b 6 2))%N (seq 0 256) = true)
    by (vm_compute; reflexivity).
  rewrite forallb_forall in A. specialize (A (N.to_nat b)). unfold is_byte in H.
  rewrite in_seq, N2Nat.id in A. specialize (A ltac:(lia)). apply andb_prop in A as [A A3]. apply andb_prop in A as [A1 A2].
  apply N.eqb_eq in A3. apply N.ltb_lt in A1, A2. auto.
Qed.
Lemma byte_join_422 s c r : (s < 16 -> r < 4 ->
  field (s + 16 * content_changed_code c + 64 * r) 0 4 = s /\ field (s + 16 * content_changed_code c + 64 * r) 4 2 = content_changed_code c)%N.
Proof.
  intros Hs Hr.
  assert (A : forallb (fun i => forallb (fun j => forallb (fun c => let s := N.of_nat i in let r := N.of_nat j in
     (field (s + 16 * content_changed_code c + 64 * r) 0 4 =? s) &&
     (field (s + 16 * content_changed_code c + 64 * r) 4 2 =? content_changed_code c))%N [CCNotSupported; CCTrue; CCFalse]) (seq 0 4)) (seq 0 16) = true)
    by (vm_compute; reflexivity).
  rewrite forallb_forall in A. specialize (A (N.to_nat s)). rewrite in_seq in A. specialize (A ltac:(lia)).
  rewrite forallb_forall in A. specialize (A (N.to_nat r)). rewrite in_seq in A. specialize (A ltac:(lia)).
  rewrite forallb_forall in A. specialize (A c). rewrite !N2Nat.id in A.
  cbv zeta in A. apply andb_prop in A; [|destruct c; simpl; auto]. destruct A as [A1 A2].
  apply N.eqb_eq in A1, A2. auto.
Qed.


Lemma rspec_measurements sr ss :
  rspec 0 (measurements_parse sr ss)
    (fun bs m => exists rsvd olen bl, (rsvd < 4)%N /\ (olen <= 1024)%N /\ meas_ok sr ss m bl /\ bs = meas_bytes rsvd olen bl m)
    meas_overflow.
Proof.
  unfold measurements_parse. eapply rspec_weaken.
  - eapply rspec_bindL; [rgo|intros total ? _ _].
    eapply rspec_if_err; intros Ht.
    eapply rspec_bits_bind; [lia|lia|intros slot Hslot; simpl Nat.add].
    eapply rspec_if_err; intros Hns.
    eapply rspec_bits_bind; [lia|lia|intros c _; simpl Nat.add].
    eapply rspec_lift_bind; intros cc Hcc.
    eapply rspec_bindL; [apply rspec_ignore_bits|intros u ? _ _].
    eapply rspec_bind; [apply rspec_map_err, rspec_mbs|intros blocks ? _ _].
    eapply rspec_bindL; [apply rspec_map_err, rspec_nonce|intros n ? _ _].
    eapply rspec_bindL; [rgo|intros olen ? _ _].
    eapply rspec_if_err; intros Holen.
    eapply rspec_bindR; [apply rspec_map_err, rspec_od|intros od ? _ _].
    eapply rspec_bind' with (P := fun bs s => bs = sig_bytes s /\ if sr then exists x, s = Some x /\ length x = ss else s = None).
    + destruct sr.
      * eapply rspec_weaken; [eapply rspec_bind'; [apply rspec_map_err, rspec_signature_read|intros; apply rspec_ret]| |reflexivity].
        intros b x _; cbv beta. split.
        -- intros; gfwd. rewrite app_nil_r. simpl. eauto.
        -- intros (-> & y & -> & Hy). simpl. exists y, [], y. rewrite app_nil_r. auto.
      * eapply rspec_weaken; [apply rspec_ret| |reflexivity]. intros b x _; cbv beta. split.
        -- intros [-> ->]. auto.
        -- intros [-> ->]. auto.
    + intros s ? _ _. apply rspec_ret.
  - intros bs m Hb; cbv beta. split.
    + intros (? & ? & total & -> & -> & Ht & b & t & Ebs & Hns & b' & t' & Ebs' & cc & Hcc & ? & ? & [] & E3 & (b'' & ->) &
        ? & ? & blocks & -> & (bl & Hbl & Hfit & HF & ->) & ? & ? & n & -> & (-> & Hn) &
        ? & ? & olen & -> & (-> & Hol) & Hol2 & ? & ? & od & -> & (Hod & ->) & ? & ? & sig & -> & (-> & Hsig) & -> & ->).
      rewrite Ebs in Ebs'. injection Ebs' as <- <-. rewrite E3 in Ebs. injection Ebs as -> _. subst x0.
      inversion Hb as [|? ? _ Hb']; subst. inversion Hb' as [|? ? Hx _]; subst. destruct (byte_split_422 b Hx) as (B1 & B2 & B3).
      apply of_option_ok, cc_of_code in Hcc. rewrite Hcc in B3. bools.
      exists (field b 6 2), olen, bl. unfold meas_ok, meas_bytes, measurements_layout.
      cbn [m_total_blocks m_slot_id m_content_changed m_blocks m_nonce m_opaque_data m_signature].
      rewrite <- B3, app_nil_r. split; [auto|]. split; [lia|]. split; [auto 12|reflexivity].
    + destruct m as [total cc slot blocks n od sig]. unfold meas_ok, meas_bytes, measurements_layout.
      cbn [m_total_blocks m_slot_id m_content_changed m_blocks m_nonce m_opaque_data m_signature].
      intros (rsvd & olen & bl & Hr & Hol & (H1 & H2 & H3 & H4 & H5 & H6 & H7 & H8 & H9) & ->).
      destruct (byte_join_422 slot cc rsvd H2 Hr) as (B1 & B2).
      eexists [_], _, _. split; [reflexivity|]. split; [reflexivity|]. split; [apply Nat.ltb_ge; lia|].
      eexists _, _. split; [reflexivity|]. rewrite B1. split; [apply Nat.ltb_ge; lia|].
      eexists _, _. split; [reflexivity|]. rewrite B2. exists cc. split; [now apply of_option_ok, cc_of_code|].
      eexists [_], _, tt. split; [reflexivity|]. split; [eexists; reflexivity|].
      eexists _, _, blocks. split; [reflexivity|]. split; [exists bl; split; [exact H4|]; split; [exact H5|]; split; [exact H6|reflexivity]|].
      eexists _, _, _. split; [reflexivity|]. split; [split; [reflexivity|auto]|].
      exists (u16le olen), (opaque_bytes od ++ sig_bytes sig), olen. split; [reflexivity|]. split; [split; [reflexivity|lia]|].
      split; [apply Nat.ltb_ge; lia|].
      eexists _, _, od. split; [reflexivity|]. split; [auto|].
      exists (sig_bytes sig), [], sig. rewrite app_nil_r. auto.
  - intros inp Hb; cbv beta. split.
    + intros (? & ? & total & -> & -> & Ht & b & t & Ebs & Hns & b' & t' & Ebs' & H).
      destruct H as [(p & H)|(cc & Hcc & ? & ? & [] & E3 & (b'' & ->) & H)]; [exfalso; eapply of_option_nopanic; eassumption|].
      rewrite Ebs in Ebs'. injection Ebs' as <- <-. rewrite E3 in Ebs. injection Ebs as -> _. subst x0.
      inversion Hb as [|? ? _ Hb']; subst. inversion Hb' as [|? ? Hx _]; subst. destruct (byte_split_422 b Hx) as (B1 & B2 & B3).
      apply of_option_ok, cc_of_code in Hcc. rewrite Hcc in B3. bools.
      exists total, (field b 0 4), cc, (field b 6 2). eexists. rewrite <- B3.
      split; [auto|]. split; [auto|]. split; [auto|]. split; [auto|]. split; [reflexivity|].
      destruct H as [H|(? & ? & blocks & -> & (bl & Hbl & Hfit & HF & ->) & ? & ? & n & -> & (-> & Hn) &
        ? & ? & olen & -> & (-> & Hol) & Hol2 & H)]; [now left|right].
      bools. eexists bl, n, olen, _. split; [auto|]. split; [apply Hbl|]. split; [auto|]. split; [auto|]. split; [lia|]. split; [exact H|reflexivity].
    + intros (total & slot & cc & rsvd & rest & H1 & H2 & H3 & Hr & -> & H).
      destruct (byte_join_422 slot cc rsvd H2 Hr) as (B1 & B2).
      eexists [_], _, _. split; [reflexivity|]. split; [reflexivity|]. split; [apply Nat.ltb_ge; lia|].
      eexists _, _. split; [reflexivity|]. rewrite B1. split; [apply Nat.ltb_ge; lia|].
      eexists _, _. split; [reflexivity|]. rewrite B2. right. exists cc. split; [now apply of_option_ok, cc_of_code|].
      eexists [_], _, tt. split; [reflexivity|]. split; [eexists; reflexivity|].
      destruct H as [H|(bl & n & olen & rest' & Hfit & Hl & HF & Hn & Hol & Hov & ->)]; [now left|right].
      eexists _, _, (mkMBs (length bl) (map Some bl ++ repeat None (MAX_MEASUREMENT_BLOCKS - length bl))).
      split; [reflexivity|]. split; [exists bl; split; [unfold mbs_has; simpl; auto|auto]|].
      eexists _, _, _. split; [reflexivity|]. split; [split; [reflexivity|auto]|].
      exists (u16le olen), rest', olen. split; [reflexivity|]. split; [split; [reflexivity|lia]|].
      split; [apply Nat.ltb_ge; lia|]. exact Hov.
Qed.
End Gram.
