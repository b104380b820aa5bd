(** Writers and parsers of CHALLENGE, CHALLENGE_AUTH and ERROR. *)
From Verif Require Import Base BaseLemmas Config Encoding MsgCommon MsgChallenge MsgError
     WriterLogic ReaderLogic ReaderBits ReaderLoops SpecWire GramBasic GramOpaque.

(** The panic set of a parser is only changed by its panicking half. *)
Lemma rspec_bindL {E A B} j (m : M Reader E A) (k : A -> M Reader E B) P Q QQ :
  rspec j m P never -> (forall a bs, bytes bs -> P bs a -> rspec 0 (k a) (Q a) (QQ a)) ->
  rspec j (bind m k) (fun bs b => exists b1 b2 a, bs = b1 ++ b2 /\ P b1 a /\ Q a b2 b)
        (fun inp => exists b1 rest a, inp = b1 ++ rest /\ P b1 a /\ QQ a rest).
Proof.
  intros H1 H2. eapply rspec_weaken; [exact (rspec_bind j m k P never Q QQ H1 H2)|reflexivity|].
  unfold never. intros; cbv beta. tauto.
Qed.
Lemma rspec_bindR {E A B} j (m : M Reader E A) (k : A -> M Reader E B) P PP Q :
  rspec j m P PP -> (forall a bs, bytes bs -> P bs a -> rspec 0 (k a) (Q a) never) ->
  rspec j (bind m k) (fun bs b => exists b1 b2 a, bs = b1 ++ b2 /\ P b1 a /\ Q a b2 b) PP.
Proof.
  intros H1 H2. eapply rspec_weaken; [exact (rspec_bind j m k P PP Q (fun _ => never) H1 H2)|reflexivity|].
  unfold never. intros; cbv beta. firstorder.
Qed.

Section Gram.
Context {cfg : Config}.

Lemma rspec_nonce : rspec 0 nonce_read (fun bs a => bs = a /\ nonce_ok a) never.
Proof.
  unfold nonce_read, nonce_ok. destruct feature_rand.
  - apply rspec_get_slice'. lia.
  - eapply rspec_weaken; [apply rspec_ret| |reflexivity]. intros bs a _. split.
    + intros [-> ->]. auto.
    + intros [-> H]. destruct a; [auto|discriminate].
Qed.
Lemma rspec_digest_read n : rspec 0 (digest_read n) (fun bs a => bs = a /\ length a = n) never.
Proof. apply rspec_get_slice'. lia. Qed.
Lemma rspec_signature_read n : rspec 0 (signature_read n) (fun bs a => bs = a /\ length a = n) never.
Proof. apply rspec_get_slice'. lia. Qed.

(** ** CHALLENGE *)
Lemma mht_of_code b t : mht_of_u8 b = Some t <-> b = hash_type_code t.
Proof.
  split.
  - intros H. unfold mht_of_u8 in H.
    repeat match type of H with context [match ?x with _ => _ end] => destruct x; try discriminate end;
      injection H as <-; reflexivity.
  - intros ->. destruct t; reflexivity.
Qed.
Lemma mht_code_eq t : mht_to_u8 t = hash_type_code t. Proof. destruct t; reflexivity. Qed.

Lemma emits_challenge m o :
  let bs := challenge_layout (ch_slot m) (ch_measurement_hash_type m) (ch_nonce m) in
  emits o (challenge_write_body m) BufferFull bs (o + length bs).
Proof.
  cbv zeta. unfold challenge_write_body. rewrite mht_code_eq.
  eapply emits_eq; [emits_go|reflexivity|]. unfold challenge_layout. rewrite !app_length. simpl. lia.
Qed.
Lemma rspec_challenge :
  rspec 0 challenge_parse
    (fun bs m => nonce_ok (ch_nonce m) /\
                 bs = challenge_layout (ch_slot m) (ch_measurement_hash_type m) (ch_nonce m)) never.
Proof.
  unfold challenge_parse. eapply rspec_weaken; [rgo; apply rspec_nonce| |reflexivity].
  intros bs m Hb; cbv beta. split.
  - intros; gfwd. match goal with H : mht_of_u8 _ = Some _ |- _ => apply mht_of_code in H; subst end.
    split; [assumption|]. unfold challenge_layout; simpl. now rewrite app_nil_r.
  - destruct m as [s t n]; simpl. intros [Hn ->]. unfold challenge_layout. gnil. gback; auto.
    apply mht_of_code. reflexivity.
Qed.

(** ** CHALLENGE_AUTH *)
Definition challenge_auth_wire (m : ChallengeAuth) (first : N) : list N :=
  [first] ++ [ca_slot_mask m] ++ ca_cert_chain_hash m ++ ca_nonce m ++ ca_measurement_summary_hash m ++
  u16le (N.of_nat (length (opaque_bytes (ca_opaque_data m)))) ++ opaque_bytes (ca_opaque_data m) ++ ca_signature m.
(** The two errors that report a full buffer. *)
Definition ca_full (e : WriteChallengeAuthError) : Prop := e = WCABufferFull \/ e = WCAWriteOpaqueElement WOEBufferFull.
Lemma emits_challenge_auth m o :
  N.to_nat (ca_slot m) < NUM_SLOTS -> Forall vendor_matches (ca_opaque_data m) ->
  length (opaque_bytes (ca_opaque_data m)) <= 1024 ->
  let bs := challenge_auth_wire m (if ca_use_mutual_auth m then N.land (ca_slot m) 128 else ca_slot m) in
  emitsS o (challenge_auth_write_body m) ca_full bs (o + length bs).
Proof.
  intros Hs Hv Hl bs. unfold challenge_auth_write_body, challenge_auth_validate.
  rewrite od_size_eq by auto. unfold MAX_OPAQUE_DATA_SIZE.
  destruct (Nat.leb_spec NUM_SLOTS (N.to_nat (ca_slot m))); [lia|].
  destruct (Nat.ltb_spec 1024 (length (opaque_bytes (ca_opaque_data m)))); [lia|].
  rewrite N.mod_small by lia.
  assert (F1 : ca_full WCABufferFull) by (now left).
  eapply emitsS_eq.
  - eapply emitsS_bind; [eapply emitsS_of; [apply emits_lift; reflexivity|exact F1]|].
    eapply emitsS_bind with (bs1 := [if ca_use_mutual_auth m then N.land (ca_slot m) 128 else ca_slot m]).
    + eapply emitsS_of; [|exact F1]. destruct (ca_use_mutual_auth m).
      * change (N.shiftl 1 7) with 128%N. emits_go.
      * emits_go.
    + do 5 (eapply emitsS_bind; [eapply emitsS_of; [emits_go|exact F1]|]).
      eapply emitsS_bind; [eapply emitsS_of; [eapply emits_map_err; [apply emits_od; auto|reflexivity]|now right]|].
      eapply emitsS_of; [emits_go|exact F1].
  - unfold bs, challenge_auth_wire. rewrite ?app_nil_r. reflexivity.
  - unfold bs, challenge_auth_wire. rewrite !app_length, le_bytes_length. cbn [length]. 
    change (length (u16le (N.of_nat (length (opaque_bytes (ca_opaque_data m)))))) with 2. lia.
Qed.


Lemma byte_split_431 b : is_byte b ->
  (field b 0 4 < 16 /\ field b 4 3 < 8 /\ b = field b 0 4 + 16 * field b 4 3 + 128 * bit (field b 7 1 =? 1))%N.
Proof.
  intros H. assert (A : forallb (fun k => let b := N.of_nat k in
     (field b 0 4 <? 16) && (field b 4 3 <? 8) && (b =? field b 0 4 + 16 * field b 4 3 + 128 * bit (field b 7 1 =? 1)))%N (seq 0 256) = true)
    by (vm_compute; reflexivity).
  rewrite forallb_forall in A. specialize (A (N.to_nat b)). unfold is_byte in H.
  rewrite in_seq, N2Nat.id in A. specialize (A ltac:(lia)). apply andb_prop in A as [A A3]. apply andb_prop in A as [A1 A2].
  apply N.eqb_eq in A3. apply N.ltb_lt in A1, A2. auto.
Qed.
Lemma byte_join_431 s r (m : bool) : (s < 16 -> r < 8 ->
  field (s + 16 * r + 128 * bit m) 0 4 = s /\ field (s + 16 * r + 128 * bit m) 4 3 = r /\
  (field (s + 16 * r + 128 * bit m) 7 1 =? 1) = m)%N.
Proof.
  intros Hs Hr.
  assert (A : forallb (fun i => forallb (fun j => forallb (fun m => let s := N.of_nat i in let r := N.of_nat j in
     (field (s + 16 * r + 128 * bit m) 0 4 =? s) && (field (s + 16 * r + 128 * bit m) 4 3 =? r) &&
     Bool.eqb (field (s + 16 * r + 128 * bit m) 7 1 =? 1) m)%N [true; false]) (seq 0 8)) (seq 0 16) = true)
    by (vm_compute; reflexivity).
  rewrite forallb_forall in A. specialize (A (N.to_nat s)). rewrite in_seq in A. specialize (A ltac:(lia)).
  rewrite forallb_forall in A. specialize (A (N.to_nat r)). rewrite in_seq in A. specialize (A ltac:(lia)).
  rewrite forallb_forall in A. specialize (A m). rewrite !N2Nat.id in A.
  cbv zeta in A. apply andb_prop in A; [|destruct m; simpl; auto]. destruct A as [A A3]. apply andb_prop in A as [A1 A2].
  apply N.eqb_eq in A1, A2. apply eqb_prop in A3. auto.
Qed.

Lemma rspec_challenge_auth ds ss :
  rspec 0 (challenge_auth_parse ds ss)
    (fun bs m => exists rsvd olen, (rsvd < 8)%N /\ (olen <= 1024)%N /\ ca_fields_ok ds ss m /\ bs = ca_bytes rsvd olen m)
    (ca_overflow ds).
Proof.
  unfold challenge_auth_parse, get_bit. eapply rspec_weaken.
  - eapply rspec_bits_bind; [lia|lia|intros slot Hslot; simpl Nat.add].
    eapply rspec_if_err; intros Hns.
    eapply rspec_bits_bind; [lia|lia|intros rsv Hrsv; simpl Nat.add].
    eapply rspec_bindL; [rgo|intros b7 ? _ _]. cbv zeta.
    eapply rspec_bindL; [rgo|intros mask ? _ _].
    eapply rspec_bindL; [apply rspec_map_err, rspec_digest_read|intros h ? _ _].
    eapply rspec_bindL; [apply rspec_map_err, rspec_nonce|intros n ? _ _].
    eapply rspec_bindL; [apply rspec_map_err, rspec_digest_read|intros s ? _ _].
    eapply rspec_bindL; [rgo|intros olen ? _ _].
    eapply rspec_if_err; intros Holen.
    eapply rspec_bindR; [apply rspec_map_err, rspec_od|intros od ? _ _].
    eapply rspec_bind'; [apply rspec_map_err, rspec_signature_read|intros sig ? _ _].
    apply rspec_ret.
  - intros bs m Hb; cbv beta. split.
    + intros (b & t & Ebs & Hns & b' & t' & Ebs' & ? & ? & b7 & E3 & (b'' & -> & ->) & ? & ? & mask & -> & -> &
        ? & ? & h & -> & (-> & Hh) & ? & ? & n & -> & (-> & Hn) & ? & ? & s & -> & (-> & Hs) &
        ? & ? & olen & -> & (-> & Hol) & Hol2 & ? & ? & od & -> & (Hod & ->) & ? & ? & sig & -> & (-> & Hsig) & -> & ->).
      rewrite Ebs in Ebs'. injection Ebs' as <- <-. rewrite E3 in Ebs. injection Ebs as -> _. subst bs.
      inversion Hb as [|? ? Hx _]; subst. destruct (byte_split_431 b Hx) as (B1 & B2 & B3).
      bools. unfold MAX_OPAQUE_DATA_SIZE in *.
      exists (field b 4 3), olen. unfold ca_fields_ok, ca_bytes, challenge_auth_layout.
      cbn [ca_slot ca_slot_mask ca_use_mutual_auth ca_cert_chain_hash ca_nonce ca_measurement_summary_hash ca_opaque_data ca_signature].
      rewrite <- B3, app_nil_r. split; [auto|]. split; [lia|]. split; [auto 10|reflexivity].
    + destruct m as [slot mask mut h n s od sig].
      intros (rsvd & olen & Hr & Hol & (H1 & H2 & H3 & H4 & H5 & H6 & H7) & ->).
      unfold ca_bytes. cbn [ca_slot ca_slot_mask ca_use_mutual_auth ca_cert_chain_hash ca_nonce ca_measurement_summary_hash ca_opaque_data ca_signature] in *.
      destruct (byte_join_431 slot rsvd mut H1 Hr) as (B1 & B2 & B3).
      unfold challenge_auth_layout.
      eexists _, _. split; [reflexivity|]. rewrite B1. split; [apply Nat.ltb_ge; lia|].
      eexists _, _. split; [reflexivity|].
      eexists [_], _, _. split; [reflexivity|]. split; [eexists; split; reflexivity|]. rewrite B3.
      eexists [_], _, _. split; [reflexivity|]. split; [reflexivity|].
      eexists _, _, _. split; [reflexivity|]. split; [split; [reflexivity|auto]|].
      eexists _, _, _. split; [reflexivity|]. split; [split; [reflexivity|auto]|].
      eexists _, _, _. split; [reflexivity|]. split; [split; [reflexivity|auto]|].
      exists (u16le olen), (opaque_bytes od ++ sig), olen. split; [reflexivity|]. split; [split; [reflexivity|lia]|].
      split; [unfold MAX_OPAQUE_DATA_SIZE; apply Nat.ltb_ge; lia|].
      eexists _, _, od. split; [reflexivity|]. split; [auto|].
      exists sig, [], sig. rewrite app_nil_r. auto.
  - intros inp Hb; cbv beta. split.
    + intros (b & t & Ebs & Hns & b' & t' & Ebs' & ? & ? & b7 & E3 & (b'' & -> & ->) & ? & ? & mask & -> & -> &
        ? & ? & h & -> & (-> & Hh) & ? & ? & n & -> & (-> & Hn) & ? & ? & s & -> & (-> & Hs) &
        ? & ? & olen & -> & (-> & Hol) & Hol2 & Hover).
      rewrite Ebs in Ebs'. injection Ebs' as <- <-. rewrite E3 in Ebs. injection Ebs as -> _. subst inp.
      inversion Hb as [|? ? Hx _]; subst. destruct (byte_split_431 b Hx) as (B1 & B2 & B3).
      bools. unfold MAX_OPAQUE_DATA_SIZE in *.
      eexists (field b 0 4), (field b 4 3), (field b 7 1 =? 1)%N, mask, h, n, s, olen, _.
      rewrite <- B3. repeat split; eauto; lia.
    + intros (slot & rsvd & mut & mask & h & n & s & olen & rest & H1 & H2 & Hr & H3 & H4 & H5 & Hol & Hover & ->).
      destruct (byte_join_431 slot rsvd mut H1 Hr) as (B1 & B2 & B3).
      eexists _, _. split; [reflexivity|]. rewrite B1. split; [apply Nat.ltb_ge; lia|].
      eexists _, _. split; [reflexivity|].
      eexists [_], _, _. split; [reflexivity|]. split; [eexists; split; reflexivity|].
      eexists [_], _, _. split; [reflexivity|]. split; [reflexivity|].
      eexists _, _, _. split; [reflexivity|]. split; [split; [reflexivity|auto]|].
      eexists _, _, _. split; [reflexivity|]. split; [split; [reflexivity|auto]|].
      eexists _, _, _. split; [reflexivity|]. split; [split; [reflexivity|auto]|].
      exists (u16le olen), rest, olen. split; [reflexivity|]. split; [split; [reflexivity|lia]|].
      split; [unfold MAX_OPAQUE_DATA_SIZE; apply Nat.ltb_ge; lia|]. auto.
Qed.

(** ** ERROR *)
Lemma emits_error m o :
  emits o (error_write_body m) BufferFull (error_layout m) (o + length (error_layout m)).
Proof.
  unfold error_write_body.
  destruct m; try (eapply emits_eq; [emits_go|reflexivity|simpl; lia]).
  eapply emits_eq; [eapply emits_bind; [eapply emits_bind; [emits_go|]; eapply emits_bind; [emits_go|];
     eapply emits_bind; [apply emits_vendor_id|emits_go]|emits_go]| |].
  - unfold error_layout, error_ext, vendor_id_wire. rewrite <- !app_assoc. simpl. rewrite registry_code_eq, ?app_nil_r. reflexivity.
  - unfold error_layout, error_ext, vendor_id_wire. rewrite !app_length. simpl. rewrite ?app_length. simpl. lia.
Qed.

Lemma rspec_error : rspec 0 error_parse error_accepts never.
Proof.
  unfold error_parse.
  eapply rspec_weaken with
    (P := fun bs m => exists b1 b2 code, bs = b1 ++ b2 /\ b1 = [code] /\
            exists b3 b4 d, b2 = b3 ++ b4 /\ b3 = [d] /\ error_ok m /\
              (match m with VendorDef _ v => vd_opaque v = [] | _ => True end) /\
              code = error_code m /\ (match error_data m with Some d' => d = d' | None => True end) /\ b4 = error_ext m).
  - eapply rspec_bind'; [rgo|]. intros code bs0 _ _. eapply rspec_bind'; [rgo|]. intros d bs1 _ _.
    assert (Hret : forall m0, error_ok m0 -> error_code m0 = code -> (match error_data m0 with Some d' => d = d' | None => True end) ->
              error_ext m0 = [] -> (forall m1, error_code m1 = code -> (match error_data m1 with Some d' => d = d' | None => True end) -> m1 = m0) ->
              rspec 0 (@ret Reader ParseErrorError ErrorMsg m0) (fun b4 m => error_ok m /\
              (match m with VendorDef _ v => vd_opaque v = [] | _ => True end) /\
              code = error_code m /\ (match error_data m with Some d' => d = d' | None => True end) /\ b4 = error_ext m) never).
    { intros m0 K1 K2 K3 K4 K5. eapply rspec_weaken; [apply rspec_ret| |reflexivity]. intros bs m _; cbv beta. split.
      - intros [-> ->]. repeat split; auto. destruct m0; auto. discriminate.
      - intros (A1 & A2 & A3 & A4 & A5). assert (m = m0) by auto. subst m. rewrite K4 in A5. auto. }
    assert (Herr : (forall m, error_code m <> code) ->
              rspec 0 (@err Reader ParseErrorError ErrorMsg InvalidErrorCode) (fun b4 m => error_ok m /\
              (match m with VendorDef _ v => vd_opaque v = [] | _ => True end) /\
              code = error_code m /\ (match error_data m with Some d' => d = d' | None => True end) /\ b4 = error_ext m) never).
    { intros K. eapply rspec_weaken; [apply rspec_err| |reflexivity]. intros bs m _; cbv beta. split; [tauto|].
      intros (_ & _ & A & _). destruct (K m); auto. }
    repeat match goal with
           | |- context [match ?x with 0%N => _ | Npos _ => _ end] => is_var x; destruct x
           | |- context [match ?x with xI _ => _ | xO _ => _ | xH => _ end] => is_var x; destruct x
           end;
    try (apply Herr; intros []; simpl; discriminate);
    try (apply Hret; simpl; auto; intros []; simpl; intros; subst; congruence).
    + eapply rspec_weaken; [rgo; apply rspec_vendor_id| |reflexivity]. intros bs m _; cbv beta. split.
      * intros; gfwd. match goal with H : registry_of_u8 _ = Some _ |- _ => apply registry_of_code in H; subst end.
        simpl. rewrite ?app_nil_r. auto.
      * intros (H1 & H2 & H3 & H4 & ->). destruct m; simpl in H3; try discriminate. simpl in *. destruct v as [v o]; simpl in *.
        subst o d. exists id. split; [now apply registry_of_code|].
        eexists [_], _, _. split; [reflexivity|]. split; [reflexivity|].
        exists (vendor_id_bytes v), [], v. split; [reflexivity|]. split; [auto|]. auto.
    + eapply rspec_weaken; [rgo| |reflexivity]. intros bs m _; cbv beta. split.
      * intros; gfwd. simpl. auto.
      * intros (H1 & H2 & H3 & H4 & ->). destruct m; simpl in H3; try discriminate. simpl. exists [handle], [], handle. auto.
    + eapply rspec_weaken; [rgo| |reflexivity]. intros bs m _; cbv beta. split.
      * intros; gfwd. simpl. auto.
      * intros (H1 & H2 & H3 & H4 & ->). destruct m; simpl in H3; try discriminate. simpl. simpl in H1.
        exists (u32le actual_size), [], actual_size. auto.
    + eapply rspec_weaken; [rgo| |reflexivity]. intros bs m _; cbv beta. split.
      * intros; gfwd. simpl. auto.
      * intros (H1 & H2 & H3 & H4 & ->). destruct m; simpl in H3; try discriminate. simpl. destruct v; simpl.
        do 3 (eexists [_], _, _; split; [reflexivity|]; split; [reflexivity|]).
        eexists [_], [], _. split; [reflexivity|]. auto.
  - intros bs m _; cbv beta. unfold error_accepts. split.
    + intros (? & ? & ? & -> & -> & ? & ? & d & -> & -> & H1 & H2 & -> & H3 & ->). eauto 8.
    + intros (H1 & H2 & d & H3 & ->). eexists [_], _, _. split; [reflexivity|]. split; [reflexivity|].
      eexists [_], _, _. split; [reflexivity|]. split; [reflexivity|]. auto 8.
  - reflexivity.
Qed.
End Gram.
