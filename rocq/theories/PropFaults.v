(** C73: which error a parser returns.  The parser of every message ends as the
    first failing row of the message's table (SpecFaults) says, on every byte
    string: with that row's error, with a panic, or with success when no row
    fails. *)
From Verif Require Import Base BaseLemmas Config Encoding MsgCommon MsgVersion MsgCapabilities MsgAlgorithms MsgDigest
     MsgCertificates MsgChallenge MsgError MsgMeasurements ReaderLogic ReaderBits SpecWire SpecChecks SpecFaults FlagLemmas
     FaultLogic VerdictLogic GramBasic GramAlg GramDigest GramCert PropTools Sample.

(** On [buf] the parser ends as the table says. *)
Definition reports {E A} (parse : list N -> res E A) (table : list N -> list (check E)) : Prop :=
  forall buf, bytes buf ->
    (exists v, first_failing (table buf) v) /\ forall v, first_failing (table buf) v -> ended v (parse buf).

Lemma reports_intro {E A} (m : M Reader E A) table :
  (forall buf, bytes buf -> exists Q, V (table buf) (m (mkReader buf 0 0)) Q) -> reports (run_parser m) table.
Proof.
  intros H buf Hb. destruct (H buf Hb) as (Q & HV). destruct (V_verdict _ _ _ HV) as (v & F & M1).
  split; [eauto|]. intros w Fw. now rewrite (first_failing_unique _ _ _ Fw F).
Qed.

Ltac vprim1 := first [apply V_byte | apply V_u16 | apply V_u32 | apply V_reserved | apply V_ignored]; first [assumption | lia].
Ltac vprim := first [vprim1 | apply V_plain; vprim1].
Ltac vgo := repeat (eapply V_bind; [vprim|intros ? ? (-> & -> & ?); cbn [Nat.add]]).
Ltac vbit := cbn [Nat.add Nat.ltb Nat.leb]; cbv iota.
Ltac vend := apply V_nil; exact I.
Notation any := (fun _ _ => True).

Section Faults.
Context {cfg : Config}.

Theorem C73_get_version : reports get_version_parse_body two_reserved_table.
Proof.
  apply reports_intro. intros buf Hb. exists any. unfold get_version_parse, two_reserved_table.
  eapply V_last; [vprim|intros ? ? (-> & -> & _)]. vend.
Qed.
Theorem C73_get_digests : reports get_digests_parse_body two_reserved_table.
Proof. exact C73_get_version. Qed.
Theorem C73_get_capabilities : reports get_capabilities_parse_body (fun buf => flags_table buf req_flag_bits).
Proof.
  apply reports_intro. intros buf Hb. exists any. unfold get_capabilities_parse, flags_table. vgo.
  rewrite <- (app_nil_r [_]). eapply V_option; [apply from_bits_None; reflexivity| |].
  - intros a Ha. now apply (from_bits_only _ req_flag_bits) in Ha.
  - intros a _ _. vend.
Qed.
Theorem C73_capabilities : reports capabilities_parse_body (fun buf => flags_table buf rsp_flag_bits).
Proof.
  apply reports_intro. intros buf Hb. exists any. unfold capabilities_parse, flags_table. vgo.
  rewrite <- (app_nil_r [_]). eapply V_option; [apply from_bits_None; reflexivity| |].
  - intros a Ha. now apply (from_bits_only _ rsp_flag_bits) in Ha.
  - intros a _ _. vend.
Qed.
Theorem C73_get_certificate : reports get_certificate_parse_body get_certificate_table.
Proof.
  apply reports_intro. intros buf Hb. exists any. unfold get_certificate_parse, get_certificate_table. vgo.
  eapply V_last; [vprim|intros ? ? (-> & -> & _)]. vend.
Qed.
Theorem C73_certificate : reports certificate_parse_body certificate_table.
Proof.
  apply reports_intro. intros buf Hb. exists any. unfold certificate_parse, certificate_table. vgo.
  apply V_guard; [intros L; apply Nat.ltb_lt in L; unfold len16; lia|intros L; apply Nat.ltb_ge in L; exact L|intros _ L]. vgo.
  eapply V_last; [apply V_slice; auto; lia|intros ? ? (-> & -> & _)]. vend.
Qed.
Theorem C73_challenge : reports challenge_parse_body challenge_table.
Proof.
  apply reports_intro. intros buf Hb. exists any. unfold challenge_parse, challenge_table. vgo.
  eapply V_option.
  - intros No [E1|[E1|[E1|[]]]]; rewrite <- E1 in No; discriminate.
  - intros a. unfold mht_of_u8. intros Ha. repeat match type of Ha with context [match ?x with _ => _ end] => destruct x; try discriminate Ha end; simpl; auto.
  - intros a _ _. eapply V_last; [apply V_nonce; lia|intros ? ? (-> & _)]. vend.
Qed.

(** ** VERSION *)
Lemma V_entry buf k : bytes buf -> k <= length buf ->
  V (has buf PVRead k 2) (ve_read (mkReader buf k 0)) (fun _ s => s = mkReader buf (k + 2) 0 /\ k + 2 <= length buf).
Proof.
  intros Hb H. unfold ve_read. change 2 with (1 + 1) at 1. apply V_has_split'.
  eapply V_bind; [apply V_bits; auto; lia|]. intros ? ? (-> & -> & L).
  eapply V_step; [apply map_bits; auto; lia|]. vbit.
  eapply V_last; [apply V_bits; auto; lia|]. intros ? ? (-> & -> & L').
  eapply V_step; [apply map_bits; auto; lia|]. vbit.
  apply V_nil. split; [f_equal; lia|lia].
Qed.
Lemma V_fill {E A} buf f (one : M Reader E A) w (arr : list A) : forall n i k,
  (forall k, k <= length buf -> V (has buf f k w) (one (mkReader buf k 0)) (fun _ s => s = mkReader buf (k + w) 0 /\ k + w <= length buf)) ->
  k <= length buf -> i + n <= length arr -> 
  forall arr', length arr' = length arr -> V (has buf f k (n * w)) (fill n i arr' one (mkReader buf k 0)) any.
Proof.
  induction n as [|n IH]; intros i k H Hk Hi arr' Ha; cbn [fill Nat.mul].
  - apply V_hold; [lia|]. vend.
  - apply V_has_split'. eapply V_bind; [apply H; lia|]. intros x s [-> L]. rewrite (proj2 (Nat.ltb_lt _ _)) by lia.
    apply IH; auto; [lia|]. now rewrite upd_length.
Qed.
Theorem C73_version : reports version_parse_body version_table.
Proof.
  apply reports_intro. intros buf Hb. exists any. unfold version_parse, version_table. vgo.
  apply V_guard; [intros L L'; apply N.ltb_lt in L; change (N.of_nat MAX_ALLOWED_VERSIONS) with 2%N in L; lia|intros L; apply N.ltb_ge in L; exact L|intros _ L].
  eapply V_last.
  - replace (2 * len8 buf 3) with (N.to_nat (byte_at buf 3) * 2) by (unfold len8; lia).
    apply (V_fill buf PVRead ve_read 2 (v_entries version_empty)); auto; [intros; now apply V_entry|simpl; lia].
  - intros. vend.
Qed.

(** ** GET_MEASUREMENTS, ERROR *)
Lemma field_0 b n : field b 0 n = (b mod 2 ^ N.of_nat n)%N.
Proof. unfold field. now rewrite N.div_1_r. Qed.
Theorem C73_get_measurements : reports get_measurements_parse_body get_measurements_table.
Proof.
  apply reports_intro. intros buf Hb. exists any. unfold get_measurements_parse, get_measurements_table, get_bit.
  eapply V_bind; [apply V_bits; auto; lia|]. intros ? ? (-> & -> & L).
  eapply V_step; [apply map_bits; auto; lia|]. vbit. cbv zeta.
  eapply V_step; [apply map_bits; auto; lia|]. vbit.
  pose proof (byte_ok buf Hb 0) as B0. unfold is_byte in B0.
  assert (F : field (byte_at buf 0) 2 6 = (byte_at buf 0 / 4)%N).
  { unfold field. change (2 ^ N.of_nat 2)%N with 4%N. change (2 ^ N.of_nat 6)%N with 64%N. apply N.mod_small. apply N.div_lt_upper_bound; lia. }
  rewrite F. apply V_guard.
  - intros L1 L2. apply negb_true_iff, N.eqb_neq in L1. apply L1, N.div_small. lia.
  - intros L1. apply negb_false_iff, N.eqb_eq in L1. apply N.div_small_iff in L1; lia.
  - intros _ L1. vgo. cbn [ra_signature_requested]. rewrite field_0. change (2 ^ N.of_nat 1)%N with 2%N.
    destruct (byte_at buf 0 mod 2 =? 1)%N; [|vend].
    eapply V_bind; [apply V_nonce; auto; lia|]. intros ? ? [-> ?]. vgo.
    rewrite <- (app_nil_r [_]). apply V_guard; [intros L2; apply Nat.leb_le in L2; unfold len8; lia|intros L2; apply Nat.leb_gt in L2; exact L2|intros; vend].
Qed.
Lemma registry_known b : is_byte b -> (registry_of_u8 b = None -> ~ (b <= 8)%N) /\ forall r, registry_of_u8 b = Some r -> (b <= 8)%N.
Proof.
  intros H. split.
  - intros No L. assert (A : forallb (fun k => match registry_of_u8 (N.of_nat k) with Some _ => true | None => false end) (seq 0 9) = true) by reflexivity.
    rewrite forallb_forall in A. specialize (A (N.to_nat b)). rewrite in_seq, N2Nat.id, No in A. now specialize (A ltac:(lia)).
  - intros r. unfold registry_of_u8. intros Hr. repeat match type of Hr with context [match ?x with _ => _ end] => destruct x; try discriminate Hr end; lia.
Qed.
Lemma V_vendor {E} buf (f : ParseVendorIdError -> E) k len : bytes buf -> k <= length buf ->
  V ([or_else (In len [0; 2; 4]%N) (f PVIInvalidLen)] ++ has buf (fun e => f (PVIRead e)) k (N.to_nat len))
    (map_err f (vendor_id_read len) (mkReader buf k 0))
    (fun _ s => s = mkReader buf (k + N.to_nat len) 0 /\ k + N.to_nat len <= length buf).
Proof.
  intros Hb H. destruct (in_dec N.eq_dec len [0; 2; 4]%N) as [D|D].
  - apply V_hold; [exact D|]. cbn [In] in D. destruct D as [<-|[<-|[<-|[]]]]; simpl N.to_nat.
    + apply V_hold; [lia|]. apply V_nil. rewrite Nat.add_0_r. auto.
    + replace (map_err f (vendor_id_read 2) (mkReader buf k 0)) with ((v <- map_err (fun e => f (PVIRead e)) get_u16 ;; ret (VU16 v)) (mkReader buf k 0)).
      2: { unfold vendor_id_read, map_err, bind, ret. now destruct (get_u16 _) as [[]]. }
      eapply V_last; [vprim|intros ? ? (-> & -> & ?)]. apply V_nil. auto.
    + replace (map_err f (vendor_id_read 4) (mkReader buf k 0)) with ((v <- map_err (fun e => f (PVIRead e)) get_u32 ;; ret (VU32 v)) (mkReader buf k 0)).
      2: { unfold vendor_id_read, map_err, bind, ret. now destruct (get_u32 _) as [[]]. }
      eapply V_last; [vprim|intros ? ? (-> & -> & ?)]. apply V_nil. auto.
  - assert (Em : vendor_id_read len = err PVIInvalidLen).
    { cbn [In] in D. unfold vendor_id_read. destruct len as [|[p|[p|[p|p|]|]|]]; try reflexivity; exfalso; apply D; tauto. }
    rewrite Em. apply V_refuse. exact D.
Qed.
Theorem C73_error : reports error_parse_body error_table.
Proof.
  apply reports_intro. intros buf Hb. exists any. unfold error_parse, error_table. vgo.
  pose proof (byte_ok buf Hb 1) as B1. set (c := byte_at buf 0). clearbody c.
  assert (D : In c known_errors \/ ~ In c known_errors) by (destruct (in_dec N.eq_dec c known_errors); auto).
  destruct D as [D|D].
  - apply V_hold; [exact D|]. cbn [In known_errors] in D. repeat (destruct D as [<-|D]; [cbv iota|]); try contradiction; try vend.
    + eapply V_last; [vprim|intros ? ? (-> & -> & _)]. vend.
    + eapply V_last; [vprim|intros ? ? (-> & -> & _)]. vend.
    + change (V (has buf PERead 2 (1 + (1 + (1 + 1)))) ((rdt_exponent <- map_err PERead get_byte ;; request_code <- map_err PERead get_byte ;;
          token <- map_err PERead get_byte ;; rdtm <- map_err PERead get_byte ;; ret (RespNotReady (mkRNR rdt_exponent request_code token rdtm)))
          (mkReader buf 2 0)) any).
      apply V_has_split'. eapply V_bind; [vprim|intros ? ? (-> & -> & ?)].
      apply V_has_split'. eapply V_bind; [vprim|intros ? ? (-> & -> & ?)].
      apply V_has_split'. eapply V_bind; [vprim|intros ? ? (-> & -> & ?)].
      eapply V_last; [vprim|intros ? ? (-> & -> & _)]. vend.
    + change (255 =? 13)%N with false. change (255 =? 15)%N with false. change (255 =? 66)%N with false. change (255 =? 255)%N with true. cbv iota.
      eapply V_option; [apply registry_known; auto|apply registry_known; auto|intros r _ _]. vgo.
      eapply V_last; [apply V_vendor; auto; lia|]. intros; vend.
  - cbn [In known_errors] in D.
    match goal with |- V _ (?m _) _ => assert (Em : m = err InvalidErrorCode) end.
    { destruct c as [|p]; [reflexivity|]. do 9 (try destruct p as [p|p|]); try reflexivity; exfalso; apply D; tauto. }
    rewrite Em. apply V_refuse. exact D.
Qed.

(** ** NEGOTIATE_ALGORITHMS, ALGORITHMS *)
Lemma low_high b : field b 0 4 = (b mod 16)%N /\ (is_byte b -> field b 4 4 = (b / 16)%N).
Proof.
  split; [apply field_0|]. unfold is_byte, field. intros H. change (2 ^ N.of_nat 4)%N with 16%N. apply N.mod_small. apply N.div_lt_upper_bound; lia.
Qed.
Lemma V_alg_struct buf k all l mk : bytes buf -> all = mask_of l -> k + 1 <= length buf ->
  V (has buf PARRead (k + 1) 1 ++ [or_else (byte_at buf (k + 1) / 16 = 2)%N IncorrectFixedAlgCount] ++ has buf PARRead (k + 2) 2 ++
     [or_else (only_bits l (u16_at buf (k + 2))) InvalidFixedAlgorithm] ++ has buf PARRead (k + 4) (4 * ext_count buf k))
    (alg_struct_read all mk (mkReader buf (k + 1) 0))
    (fun a s => a = mk (u16_at buf (k + 2)) /\ s = mkReader buf (struct_end buf k) 0 /\ struct_end buf k <= length buf).
Proof.
  intros Hb Ha H. unfold alg_struct_read. eapply V_bind; [apply V_bits; auto; lia|]. intros ? ? (-> & -> & L).
  eapply V_step; [apply map_bits; auto; lia|]. vbit. destruct (low_high (byte_at buf (k + 1))) as [Lo Hi]. rewrite Lo, Hi by now apply byte_ok.
  apply V_guard; [intros X Y; apply negb_true_iff, N.eqb_neq in X; now apply X|intros X; apply negb_false_iff, N.eqb_eq in X; exact X|intros _ C].
  replace (k + 1 + 1) with (k + 2) by lia. eapply V_bind; [vprim|intros ? ? (-> & -> & ?)].
  eapply V_option; [now apply from_bits_None|intros a X; now apply (from_bits_only _ l) in X|].
  intros a X _. apply (from_bits_only _ l) in X as [-> _]; [|auto]. replace (k + 2 + 2) with (k + 4) in * by lia.
  eapply V_last; [unfold ext_count; vprim|intros ? ? (-> & -> & ?)]. apply V_nil. unfold struct_end, ext_count. auto.
Qed.
(** Type and selected algorithms of a structure. *)
Definition type_of (a : AlgorithmRequest) : N := match a with Dhe _ => 2 | Aead _ => 3 | ReqBaseAsym _ => 4 | KeySchedule _ => 5 end.
Definition bits_of (a : AlgorithmRequest) : N := match a with Dhe s => s | Aead s => s | ReqBaseAsym s => s | KeySchedule s => s end.
Lemma V_struct buf k : bytes buf -> k <= length buf ->
  V (struct_table buf k) (ar_read (mkReader buf k 0))
    (fun a s => (type_of a = byte_at buf k /\ bits_of a = u16_at buf (k + 2)) /\ s = mkReader buf (struct_end buf k) 0 /\ struct_end buf k <= length buf).
Proof.
  intros Hb H. unfold ar_read, struct_table. vgo. unfold Dhe_TYPE, Aead_TYPE, ReqBaseAsym_TYPE, KeySchedule_TYPE.
  destruct (N.eqb_spec (byte_at buf k) 2) as [E2|E2].
  { apply V_hold; [lia|]. rewrite E2. eapply V_post; [apply (V_alg_struct buf k Dhe_all [0; 1; 2; 3; 4; 5]%N Dhe); auto|].
    intros a s (-> & -> & ?). cbn [type_of bits_of]. auto. }
  destruct (N.eqb_spec (byte_at buf k) 3) as [E3|E3].
  { apply V_hold; [lia|]. rewrite E3. eapply V_post; [apply (V_alg_struct buf k Aead_all [0; 1; 2]%N Aead); auto|].
    intros a s (-> & -> & ?). cbn [type_of bits_of]. auto. }
  destruct (N.eqb_spec (byte_at buf k) 4) as [E4|E4].
  { apply V_hold; [lia|]. rewrite E4. eapply V_post; [apply (V_alg_struct buf k ReqBaseAsym_all [0; 1; 2; 3; 4; 5; 6; 7; 8]%N ReqBaseAsym); auto|].
    intros a s (-> & -> & ?). cbn [type_of bits_of]. auto. }
  destruct (N.eqb_spec (byte_at buf k) 5) as [E5|E5].
  { apply V_hold; [lia|]. rewrite E5. eapply V_post; [apply (V_alg_struct buf k KeySchedule_all [0]%N KeySchedule); auto|].
    intros a s (-> & -> & ?). cbn [type_of bits_of]. auto. }
  apply V_refuse. lia.
Qed.
Lemma V_structs {E A} buf (one : M Reader E A) t : 
  (forall k, k <= length buf -> V (t k) (one (mkReader buf k 0)) (fun _ s => s = mkReader buf (struct_end buf k) 0 /\ struct_end buf k <= length buf)) ->
  forall n i k arr, k <= length buf -> i + n <= length arr -> V (structs_table buf t n k) (fill n i arr one (mkReader buf k 0)) any.
Proof.
  intros H. induction n as [|n IH]; intros i k arr Hk Hi; cbn [fill structs_table].
  - vend.
  - eapply V_bind; [apply H; lia|]. intros x s [-> L]. rewrite (proj2 (Nat.ltb_lt _ _)) by lia. apply IH; auto. rewrite upd_length. lia.
Qed.
Lemma fill_arr : length (repeat ar_default MAX_ALGORITHM_REQUESTS) = 4.
Proof. reflexivity. Qed.
Theorem C73_negotiate_algorithms : reports negotiate_algorithms_parse_body negotiate_table.
Proof.
  apply reports_intro. intros buf Hb. exists any. unfold negotiate_algorithms_parse, negotiate_table. vgo.
  apply V_guard; [intros L; apply Nat.ltb_lt in L; unfold MAX_ALGORITHM_REQUESTS in L; lia|intros L; apply Nat.ltb_ge in L; unfold MAX_ALGORITHM_REQUESTS in L; lia|intros _ L0]. vgo.
  apply V_guard; [intros L; apply N.ltb_lt in L; lia|intros L; apply N.ltb_ge in L; lia|intros _ L1]. vgo.
  eapply V_option; [now apply from_bits_None|intros a X; now apply (from_bits_only _ meas_spec_bits) in X|intros a1 _ _]. vgo.
  eapply V_option; [now apply from_bits_None|intros a X; now apply (from_bits_only _ asym_bits) in X|intros a2 _ _]. vgo.
  eapply V_option; [now apply from_bits_None|intros a X; now apply (from_bits_only _ hash_bits) in X|intros a3 _ _]. vgo.
  unfold len8. rewrite !(Nat.mul_comm 4). vgo.
  eapply V_last; [apply V_structs|intros; vend].
  - intros k Hk. apply V_under. eapply V_post; [now apply V_struct|]. cbv beta. tauto.
  - auto.
  - rewrite fill_arr. lia.
Qed.
Lemma V_selection l all (inv more : ParseAlgorithmsError) v (s : Reader) : all = mask_of l ->
  V (selection l v inv more) (one_selection all inv more v s) (fun a s' => a = v /\ s' = s).
Proof.
  intros Ha. unfold one_selection, selection. change (V ([or_else (only_bits l v) inv] ++ [or_else (exists i, v = (2 ^ i)%N) more] ++ [])
    ((v0 <- lift (of_option inv (from_bits all v)) ;; (if negb (count_ones v0 =? 1) then err more else ret v0)) s) (fun a s' => a = v /\ s' = s)).
  eapply V_option; [now apply from_bits_None|intros a X; now apply (from_bits_only _ l) in X|].
  intros a X _. apply (from_bits_only _ l) in X as [-> _]; [|auto]. apply V_guard.
  - intros X Y. apply negb_true_iff, Nat.eqb_neq in X. apply X. now apply count_ones_1.
  - intros X. apply negb_false_iff, Nat.eqb_eq in X. now apply count_ones_1.
  - intros _ _. now apply V_nil.
Qed.
Lemma rsvd_app {E} buf (f : ReadError -> E) k n m : rsvd buf f k (n + m) = rsvd buf f k n ++ rsvd buf f (k + n) m.
Proof. unfold rsvd. now rewrite seq_app, flat_map_app. Qed.
Lemma V_selected buf k : bytes buf -> k <= length buf ->
  V (selected_struct_table buf k) (alg_response_read (mkReader buf k 0)) (fun _ s => s = mkReader buf (struct_end buf k) 0 /\ struct_end buf k <= length buf).
Proof.
  intros Hb H. unfold alg_response_read, selected_struct_table. eapply V_bind; [apply V_under, V_struct; auto|].
  intros a s ((T & B) & -> & L). rewrite <- T, <- B. unfold bind, lift, ensure_only_one_bit_set.
  destruct a; cbn [type_of bits_of more_than_one N.eqb Pos.eqb]; match goal with |- context [count_ones ?v =? 1] => destruct (Nat.eqb_spec (count_ones v) 1) as [C|C] end.
  all: try (apply V_hold; [now apply count_ones_1|]; now apply V_nil).
  all: apply V_refuse; intros Y; apply C; now apply count_ones_1.
Qed.
Theorem C73_algorithms : reports algorithms_parse_body algorithms_table.
Proof.
  apply reports_intro. intros buf Hb. exists any. unfold algorithms_parse, algorithms_table.
  change (rsvd buf PARead 18 16) with (rsvd buf PARead 18 (12 + (1 + (1 + 2)))). rewrite !rsvd_app.
  cbn [Nat.add]. rewrite <- !app_assoc. vgo.
  apply V_guard; [intros L; apply Nat.ltb_lt in L; unfold MAX_ALGORITHM_REQUESTS in L; lia|intros L; apply Nat.ltb_ge in L; unfold MAX_ALGORITHM_REQUESTS in L; lia|intros _ L0]. vgo.
  eapply V_bind; [now apply V_selection|intros ? ? (-> & ->)]. vgo.
  eapply V_bind; [now apply V_selection|intros ? ? (-> & ->)]. vgo.
  eapply V_bind; [now apply V_selection|intros ? ? (-> & ->)]. vgo.
  eapply V_bind; [now apply V_selection|intros ? ? (-> & ->)]. vgo.
  eapply V_last; [apply V_structs|intros; vend].
  - intros k Hk. now apply V_selected.
  - auto.
  - rewrite fill_arr. lia.
Qed.

(** ** DIGESTS *)
Lemma V_digests buf size : bytes buf -> NUM_SLOTS <= 8 -> forall fuel bits ds k, (bits < 256)%N -> length ds = NUM_SLOTS ->
  length (mask_slots NUM_SLOTS bits) <= fuel -> k <= length buf ->
  V (has buf (fun e => e) k (size * length (mask_slots NUM_SLOTS bits))) (read_digests_loop fuel size bits ds (mkReader buf k 0)) any.
Proof.
  intros Hb NS8. induction fuel as [|fuel IH]; intros bits ds k Hbits Hds Hf Hk;
    pose proof (mask_step NUM_SLOTS bits NS8 Hbits) as St; unfold mask_step_check in St; cbn [read_digests_loop].
  - destruct (mask_slots NUM_SLOTS bits); [|simpl in Hf; lia].
    apply Nat.leb_le in St. destruct (Nat.ltb_spec (trailing_zeros 8 bits) NUM_SLOTS); [lia|].
    cbn [length]. rewrite Nat.mul_0_r. apply V_hold; [lia|]. vend.
  - destruct (mask_slots NUM_SLOTS bits) as [|j ks] eqn:Ek.
    + apply Nat.leb_le in St. destruct (Nat.ltb_spec (trailing_zeros 8 bits) NUM_SLOTS); [lia|].
      cbn [length]. rewrite Nat.mul_0_r. apply V_hold; [lia|]. vend.
    + rewrite !andb_true_iff in St. destruct St as ((((S1 & S2) & S3) & S4) & S5).
      apply Nat.eqb_eq in S1. apply Nat.ltb_lt in S2, S3. apply N.ltb_lt in S4. apply nlist_eqb_eq in S5.
      rewrite S1. destruct (Nat.ltb_spec j NUM_SLOTS); [|lia].
      unfold xor_bit, shl8, shamt8. destruct (Nat.ltb_spec j 8); [|lia]. cbn [rmap].
      cbn [length]. replace (size * S (length ks)) with (size + size * length ks) by lia. apply V_has_split'.
      eapply V_bind; [apply V_plain, V_slice; auto|]. intros ? ? (-> & -> & L). destruct (Nat.ltb_spec j (length ds)); [|lia].
      eapply V_step; [reflexivity|]. eapply V_step; [reflexivity|].
      rewrite <- S5. apply IH; auto; [now rewrite upd_length|]. rewrite S5. simpl in Hf. lia.
Qed.
Theorem C73_digests size : NUM_SLOTS <= 8 -> reports (digests_parse_body size) (fun buf => digests_table buf size).
Proof.
  intros NS8. apply reports_intro. intros buf Hb. exists any. unfold digests_parse, digests_table. vgo.
  eapply V_last; [apply V_digests; auto|intros; vend].
  - exact (byte_ok buf Hb 1).
  - apply repeat_length.
  - pose proof (mask_slots_length NUM_SLOTS (byte_at buf 1)). lia.
Qed.

(** ** Certificate chains *)
Lemma V_der buf k : bytes buf -> k <= length buf ->
  V (der_table buf k) (read_cert_size (mkReader buf k 0))
    (fun x s => let '(len, h) := x in der_end buf k = k + h + len /\ s = mkReader buf (k + h) 0 /\ k + h <= length buf).
Proof.
  intros Hb H. unfold read_cert_size, der_table. eapply V_bind; [vprim|intros ? ? (-> & -> & ?)].
  destruct (N.eqb_spec (byte_at buf k) 48) as [E0|E0]; [|apply V_crash; exact E0]. apply V_hold; [exact E0|].
  eapply V_step; [reflexivity|]. eapply V_bind; [vprim|intros ? ? (-> & -> & ?)].
  rewrite bit7 by now apply byte_ok. unfold der_end, len8.
  destruct (byte_at buf (k + 1) <? 128)%N; [apply V_nil; split; [lia|split; [f_equal; lia|lia]]|].
  destruct (byte_at buf (k + 1) =? 129)%N.
  { replace (k + 1 + 1) with (k + 2) in * by lia. eapply V_bind; [vprim|intros ? ? (-> & -> & ?)].
    rewrite <- (app_nil_r [_]). apply V_guard; [intros L; apply N.ltb_lt in L; lia|intros L; apply N.ltb_ge in L; lia|].
    intros _ _. apply V_nil. split; [lia|split; [f_equal; lia|lia]]. }
  destruct (byte_at buf (k + 1) =? 130)%N; [|apply V_refuse; tauto].
  change (has buf PCCRead (k + 2) 2) with (has buf PCCRead (k + 2) (1 + 1)). apply V_has_split.
  replace (k + 1 + 1) with (k + 2) in * by lia. eapply V_bind; [vprim|intros ? ? (-> & -> & ?)].
  eapply V_bind; [vprim|intros ? ? (-> & -> & ?)]. cbv zeta.
  rewrite shl8_lor by exact (byte_ok buf Hb _). replace (k + 2 + 1) with (k + 3) by lia.
  rewrite <- (app_nil_r [_]). apply V_guard; [intros L; apply N.ltb_lt in L; lia|intros L; apply N.ltb_ge in L; lia|].
  intros _ _. apply V_nil. split; [lia|split; [f_equal; lia|lia]].
Qed.
Lemma V_certs buf : bytes buf -> forall more k acc, k <= length buf ->
  V (certs_table buf more k) (chain_loop more buf acc (mkReader buf k 0)) (fun x _ => snd x <= length buf).
Proof.
  intros Hb. induction more as [|more IH]; intros k acc H; cbn [chain_loop certs_table].
  all: eapply V_step; [reflexivity|]; eapply V_bind; [now apply V_der|]; intros [len h] s (D & -> & L); cbv beta iota.
  all: eapply V_step; [reflexivity|]; unfold r_remaining; cbn [r_buf r_byte]; rewrite D.
  all: apply V_guard; [intros X; apply Nat.ltb_lt in X; lia|intros X; apply Nat.ltb_ge in X; lia|intros _ X].
  all: replace (k + h + len =? length buf) with (len =? length buf - (k + h))
    by (destruct (Nat.eqb_spec len (length buf - (k + h))), (Nat.eqb_spec (k + h + len) (length buf)); auto; lia).
  all: destruct (Nat.eqb_spec len (length buf - (k + h))); [apply V_nil; exact H|].
  - apply V_refuse. tauto.
  - cbv zeta. rewrite (proj2 (Nat.leb_le _ _)) by lia. eapply V_step; [reflexivity|].
    assert (K : map_err PCCRead (skip_ignored len) (mkReader buf (k + h) 0) = (Ok tt, mkReader buf (k + h + len) 0)).
    { destruct (V_ignored buf PCCRead len (k + h) L) as [[_ (a & s & E1 & -> & -> & _)]|(pre & P & v & post & E1 & F & N & _)]; [exact E1|].
      destruct pre as [|? [|]]; cbn in E1; try discriminate. injection E1 as <- _ _. lia. }
    eapply V_step; [exact K|]. apply IH. lia.
Qed.
Theorem C73_certificate_chain size : reports (fun buf => chain_parse buf size) (fun buf => chain_table buf size).
Proof.
  intros buf Hb. assert (HV : V (chain_table buf size) (chain_parse_m buf size (mkReader buf 0 0)) any).
  2: { destruct (V_verdict _ _ _ HV) as (v & F & M1). split; [eauto|]. intros w Fw. now rewrite (first_failing_unique _ _ _ Fw F). }
  unfold chain_parse_m, chain_table. vgo.
  apply V_guard; [intros X; apply negb_true_iff, Nat.eqb_neq in X; exact X|intros X; apply negb_false_iff, Nat.eqb_eq in X; exact X|intros _ X]. vgo.
  eapply V_step; [reflexivity|]. cbn [r_byte]. eapply V_bind; [vprim|intros ? ? (-> & -> & ?)].
  rewrite (proj2 (Nat.leb_le _ _)) by lia. eapply V_step; [reflexivity|]. cbv zeta.
  eapply V_last; [now apply V_certs|]. intros [inter off] s L. cbn [snd] in L. rewrite (proj2 (Nat.leb_le _ _)) by exact L.
  eapply V_step; [reflexivity|]. vend.
Qed.

(** ** Opaque data *)
Lemma pad_eq raw : oe_padding raw = (4 - raw mod 4) mod 4.
Proof. unfold oe_padding. pose proof (Nat.mod_upper_bound raw 4). destruct (raw mod 4) as [|[|[|[|]]]]; simpl; lia. Qed.
Lemma reg_facts b r : registry_of_u8 b = Some r -> (b <= 8)%N /\ vendor_id_len r = id_len b /\ In (id_len b) [0; 2; 4]%N.
Proof.
  unfold registry_of_u8. intros Hr. repeat match type of Hr with context [match ?x with _ => _ end] => destruct x; try discriminate Hr end;
    injection Hr as <-; (split; [lia|]); (split; [reflexivity|]); unfold id_len; simpl; auto.
Qed.
Lemma V_element buf k : bytes buf -> k <= length buf ->
  V (element_table buf k) (oe_read (mkReader buf k 0)) (fun _ s => s = mkReader buf (element_end buf k) 0 /\ element_end buf k <= length buf).
Proof.
  intros Hb H. unfold oe_read, element_table. eapply V_bind; [vprim|intros ? ? (-> & -> & ?)].
  eapply V_option; [apply registry_known; now apply byte_ok|apply registry_known; now apply byte_ok|]. intros r Hr _.
  destruct (reg_facts _ _ Hr) as (_ & Lr & In3). eapply V_bind; [vprim|intros ? ? (-> & -> & ?)].
  unfold ensure_vendor_id_len. rewrite Lr.
  destruct (N.eqb_spec (byte_at buf (k + 1)) (id_len (byte_at buf k))) as [E1|E1]; [|apply V_refuse; exact E1].
  apply V_hold; [exact E1|]. eapply V_step; [reflexivity|]. rewrite <- E1 in In3. replace (k + 1 + 1) with (k + 2) in * by lia.
  eapply V_bind.
  { pose proof (V_vendor buf POEParseVendorId (k + 2) (byte_at buf (k + 1)) Hb ltac:(lia)) as X.
    destruct X as [[F X]|(pre & P & v & post & E2 & F & N & A1 & M1)].
    - left. split; [|exact X]. now inversion F.
    - destruct pre as [|x pre]; cbn [app] in E2; injection E2 as <- E2; [|].
      + contradiction.
      + right. exists pre, P, v, post. inversion F; subst. auto. }
  intros ? ? (-> & ?). unfold len8. eapply V_bind; [vprim|intros ? ? (-> & -> & ?)].
  replace (k + 2 + N.to_nat (byte_at buf (k + 1)) + 2) with (element_data buf k) in * by (unfold element_data, len8; lia).
  change (N.to_nat (u16_at buf (k + 2 + N.to_nat (byte_at buf (k + 1))))) with (len16 buf (k + 2 + N.to_nat (byte_at buf (k + 1)))).
  rewrite (app_assoc (has _ _ (element_data buf k) _)). eapply V_bind; [apply V_slice_crash; auto|]. intros ? ? (-> & -> & ?).
  rewrite pad_eq. fold (len8 buf (k + 1)) in *.
  replace (element_data buf k + len16 buf (k + 2 + len8 buf (k + 1))) with (k + element_size buf k) in * by (unfold element_data, element_size; lia).
  eapply V_last; [unfold element_pad, element_size; vprim|]. intros ? ? (-> & -> & ?). apply V_nil.
  unfold element_end, element_pad, element_size. auto.
Qed.
Lemma V_elements buf : bytes buf -> forall n i k arr, k <= length buf -> length arr = MAX_OPAQUE_ELEMENTS ->
  V (elements_table buf n i k) (fill n i arr (map_err PODParseOpaqueElement oe_read) (mkReader buf k 0))
    (fun _ s => s = mkReader buf (elements_end buf n k) 0 /\ elements_end buf n k <= length buf).
Proof.
  intros Hb. induction n as [|n IH]; intros i k arr Hk Ha; cbn [fill elements_table elements_end].
  - now apply V_nil.
  - eapply V_bind; [apply V_under; now apply V_element|]. intros x s [-> L]. rewrite Ha.
    destruct (Nat.ltb_spec i MAX_OPAQUE_ELEMENTS); [|apply V_crash; lia]. apply V_hold; [auto|]. apply IH; auto. now rewrite upd_length.
Qed.
Lemma V_opaque buf k : bytes buf -> k <= length buf ->
  V (opaque_table buf k) (od_read (mkReader buf k 0)) (fun _ s => s = mkReader buf (opaque_end buf k) 0 /\ opaque_end buf k <= length buf).
Proof.
  intros Hb H. unfold od_read, opaque_table. eapply V_bind; [vprim|intros ? ? (-> & -> & ?)].
  eapply V_bind; [vprim|intros ? ? (-> & -> & ?)]. replace (k + 1 + 3) with (k + 4) in * by lia.
  eapply V_last; [apply V_elements; auto; apply repeat_length|]. intros ? ? (-> & ?). now apply V_nil.
Qed.
Theorem C73_challenge_auth ds ss : reports (fun buf => challenge_auth_parse_body buf ds ss) (fun buf => challenge_auth_table buf ds ss).
Proof.
  apply reports_intro. intros buf Hb. exists any. unfold challenge_auth_parse, challenge_auth_table, get_bit, digest_read, signature_read.
  eapply V_bind; [apply V_bits; auto; lia|]. intros ? ? (-> & -> & L). destruct (low_high (byte_at buf 0)) as [Lo _]. rewrite Lo.
  apply V_guard; [intros X; apply Nat.ltb_lt in X; lia|intros X; apply Nat.ltb_ge in X; lia|intros _ _].
  eapply V_step; [apply map_bits; auto; lia|]. vbit. eapply V_step; [apply map_bits; auto; lia|]. vbit. cbv zeta. vgo.
  eapply V_bind; [apply V_slice; auto; lia|intros ? ? (-> & -> & ?)].
  eapply V_bind; [apply V_nonce; auto; lia|intros ? ? (-> & ?)].
  eapply V_bind; [apply V_slice; auto; lia|intros ? ? (-> & -> & ?)].
  eapply V_bind; [vprim|intros ? ? (-> & -> & ?)].
  apply V_guard; [intros X; apply Nat.ltb_lt in X; now apply Nat.lt_nge|intros X; apply Nat.ltb_ge in X; exact X|intros _ _].
  eapply V_bind; [apply V_under, V_opaque; auto|intros ? ? (-> & ?)].
  eapply V_last; [apply V_slice; auto|intros; vend].
Qed.

(** ** MEASUREMENTS *)
Lemma low7 v : is_byte v -> N.land v 127 = (v mod 128)%N /\ N.land v 128 = (if v <? 128 then 0 else 128)%N.
Proof.
  intros H. assert (A : forallb (fun k => (N.land (N.of_nat k) 127 =? N.of_nat k mod 128)%N && (N.land (N.of_nat k) 128 =? if (N.of_nat k <? 128)%N then 0 else 128)%N) (seq 0 256) = true) by (vm_compute; reflexivity).
  rewrite forallb_forall in A. unfold is_byte in H. specialize (A (N.to_nat v) ltac:(apply in_seq; lia)). rewrite N2Nat.id in A.
  apply andb_true_iff in A as [A B]. now apply N.eqb_eq in A, B.
Qed.
Lemma vt_known v : (vt_of_u8 v = None -> ~ (v <= 7)%N) /\ forall t, vt_of_u8 v = Some t -> (v <= 7)%N.
Proof.
  split.
  - intros No L. assert (A : forallb (fun k => match vt_of_u8 (N.of_nat k) with Some _ => true | None => false end) (seq 0 8) = true) by reflexivity.
    rewrite forallb_forall in A. specialize (A (N.to_nat v)). rewrite in_seq, N2Nat.id, No in A. now specialize (A ltac:(lia)).
  - intros r. unfold vt_of_u8. intros Hr. repeat match type of Hr with context [match ?x with _ => _ end] => destruct x; try discriminate Hr end; lia.
Qed.
Lemma V_bitstream {E} buf (f : ParseBitStreamError -> E) k n : k <= length buf ->
  V ([or_else (n <= MAX_MEASUREMENT_SIZE) (f PBSMaxSizeExceeded)] ++ has buf (fun e => f (PBSRead e)) k n)
    (map_err f (bitstream_read n) (mkReader buf k 0)) (fun _ s => s = mkReader buf (k + n) 0 /\ k + n <= length buf).
Proof.
  intros H. unfold bitstream_read, map_err at 1. destruct (Nat.ltb_spec MAX_MEASUREMENT_SIZE n).
  - unfold err. apply V_refuse. lia.
  - apply V_hold; [auto|]. pose proof (V_slice buf (fun e => f (PBSRead e)) k n MAX_MEASUREMENT_SIZE H ltac:(lia)) as X.
    unfold map_err in *. destruct (get_slice n MAX_MEASUREMENT_SIZE (mkReader buf k 0)) as [[a|e|p] s]; cbv iota beta in *; eapply V_post; try exact X; intros ? ? (_ & -> & ?); auto.
Qed.
Lemma V_dmtf buf k : bytes buf -> k <= length buf ->
  V (dmtf_table buf k) (dm_read (mkReader buf k 0)) (fun _ s => s = mkReader buf (k + 3 + len16 buf (k + 1)) 0 /\ k + 3 + len16 buf (k + 1) <= length buf).
Proof.
  intros Hb H. unfold dm_read, dmtf_table, digest_read. eapply V_bind; [vprim|intros ? ? (-> & -> & ?)].
  destruct (low7 _ (byte_ok buf Hb k)) as [E7 E8]. rewrite E7, E8.
  eapply V_option; [apply vt_known|apply vt_known|]. intros t _ _. eapply V_step.
  { instantiate (2 := if (byte_at buf k <? 128)%N then ReprDigest else ReprRawBitStream). destruct (byte_at buf k <? 128)%N; reflexivity. }
  eapply V_bind; [vprim|intros ? ? (-> & -> & ?)]. replace (k + 1 + 2) with (k + 3) in * by lia.
  fold (len16 buf (k + 1)) in *. destruct (byte_at buf k <? 128)%N.
  - destruct (Nat.leb_spec (len16 buf (k + 1)) MAX_DIGEST_SIZE); [|apply V_refuse; lia]. apply V_hold; [auto|].
    eapply V_last; [eapply V_last; [apply V_slice; auto|]|].
    + intros ? ? (-> & -> & ?). apply V_nil with (Q := fun _ s => s = mkReader buf (k + 3 + len16 buf (k + 1)) 0 /\ k + 3 + len16 buf (k + 1) <= length buf). auto.
    + intros ? ? (-> & ?). now apply V_nil.
  - eapply V_last; [eapply V_last; [apply V_bitstream; auto|]|].
    + intros ? ? (-> & ?). apply V_nil with (Q := fun _ s => s = mkReader buf (k + 3 + len16 buf (k + 1)) 0 /\ k + 3 + len16 buf (k + 1) <= length buf). auto.
    + intros ? ? (-> & ?). now apply V_nil.
Qed.
Lemma V_block buf k : bytes buf -> k <= length buf ->
  V (block_table buf k) (mb_read (mkReader buf k 0)) (fun _ s => s = mkReader buf (block_end buf k) 0 /\ block_end buf k <= length buf).
Proof.
  intros Hb H. unfold mb_read, block_table. eapply V_bind; [vprim|intros ? ? (-> & -> & ?)]. eapply V_bind; [vprim|intros ? ? (-> & -> & ?)].
  apply V_guard; [intros X; apply negb_true_iff, N.eqb_neq in X; exact X|intros X; apply negb_false_iff, N.eqb_eq in X; exact X|intros _ _].
  replace (k + 1 + 1) with (k + 2) in * by lia. eapply V_bind; [vprim|intros ? ? (-> & -> & ?)]. replace (k + 2 + 2) with (k + 4) in * by lia.
  eapply V_step; [reflexivity|]. cbn [r_byte]. eapply V_bind; [apply V_under, V_dmtf; auto|]. intros ? ? (-> & ?).
  eapply V_step; [reflexivity|]. cbn [r_byte]. replace (k + 4 + 1) with (k + 5) in * by lia. rewrite <- (app_nil_r [_]). unfold block_end.
  apply V_guard; [intros X; apply negb_true_iff, Nat.eqb_neq in X; unfold len16 at 1; lia|intros X; apply negb_false_iff, Nat.eqb_eq in X; unfold len16 at 1; lia|intros _ _].
  apply V_nil. split; [f_equal; lia|lia].
Qed.
Lemma V_record buf : bytes buf -> forall n i k arr, k <= length buf -> length arr = MAX_MEASUREMENT_BLOCKS ->
  V (record_table buf n i k) (fill n i arr (b <- map_err PMBsBlock mb_read ;; ret (Some b)) (mkReader buf k 0))
    (fun _ s => s = mkReader buf (record_end buf n k) 0 /\ record_end buf n k <= length buf).
Proof.
  intros Hb. induction n as [|n IH]; intros i k arr Hk Ha; cbn [fill record_table record_end].
  - now apply V_nil.
  - eapply V_bind.
    + eapply V_last; [apply V_under; now apply V_block|]. intros x s [-> L].
      apply V_nil with (Q := fun _ s => s = mkReader buf (block_end buf k) 0 /\ block_end buf k <= length buf). auto.
    + intros x s [-> L]. rewrite Ha.
      destruct (Nat.ltb_spec i MAX_MEASUREMENT_BLOCKS); [|apply V_crash; lia]. apply V_hold; [auto|]. apply IH; auto. now rewrite upd_length.
Qed.
Lemma V_blocks buf k : bytes buf -> k <= length buf ->
  V (blocks_table buf k) (mbs_read (mkReader buf k 0)) (fun _ s => s = mkReader buf (blocks_end buf k) 0 /\ blocks_end buf k <= length buf).
Proof.
  intros Hb H. unfold mbs_read, blocks_table. eapply V_bind; [vprim|intros ? ? (-> & -> & ?)].
  eapply V_bind; [apply V_u24; auto|intros ? ? (-> & -> & ?)]. replace (k + 1 + 3) with (k + 4) in * by lia.
  apply V_guard; [intros X; apply N.ltb_lt in X; lia|intros X; apply N.ltb_ge in X; lia|intros _ _].
  eapply V_step; [reflexivity|]. cbn [r_byte]. eapply V_bind; [apply V_record; auto; apply repeat_length|]. intros ? ? (-> & ?).
  eapply V_step; [reflexivity|]. cbn [r_byte]. unfold blocks_end, len8. rewrite <- (app_nil_r [_]).
  apply V_guard; [intros X; apply negb_true_iff, Nat.eqb_neq in X; exact X|intros X; apply negb_false_iff, Nat.eqb_eq in X; exact X|intros _ _].
  now apply V_nil.
Qed.
Lemma cc_known v : (cc_of_u8 v = None -> ~ (v <= 2)%N) /\ forall t, cc_of_u8 v = Some t -> (v <= 2)%N.
Proof.
  split.
  - intros No L. assert (v = 0 \/ v = 1 \/ v = 2)%N as [->|[->| ->]] by lia; discriminate.
  - intros r. unfold cc_of_u8. intros Hr. repeat match type of Hr with context [match ?x with _ => _ end] => destruct x; try discriminate Hr end; lia.
Qed.
Theorem C73_measurements signed ss :
  reports (fun buf => measurements_parse_body buf signed ss) (fun buf => measurements_table buf signed ss).
Proof.
  apply reports_intro. intros buf Hb. exists any. unfold measurements_parse, measurements_table, signature_read.
  change 1024 with MAX_OPAQUE_DATA_SIZE. vgo.
  apply V_guard; [intros X; apply Nat.ltb_lt in X; unfold len8; lia|intros X; apply Nat.ltb_ge in X; exact X|intros _ _].
  eapply V_bind; [apply V_bits; auto; lia|]. intros ? ? (-> & -> & L). destruct (low_high (byte_at buf 1)) as [Lo _]. rewrite Lo.
  match goal with |- V ([?a; ?b] ++ ?l) _ _ => change ([a; b] ++ l) with ([a] ++ [b] ++ l) end.
  apply V_guard; [intros X; apply Nat.ltb_lt in X; lia|intros X; apply Nat.ltb_ge in X; lia|intros _ _].
  eapply V_step; [apply map_bits; auto; lia|]. vbit.
  change (field (byte_at buf 1) 4 2) with (byte_at buf 1 / 16 mod 4)%N.
  eapply V_option; [apply cc_known|apply cc_known|]. intros c _ _.
  eapply V_step. { unfold ignore_result. rewrite (bits_inside buf Hb 1 6 2) by lia. vbit. reflexivity. }
  cbn [Nat.add]. eapply V_bind; [apply V_under, V_blocks; auto; lia|]. intros ? ? (-> & ?).
  eapply V_bind; [apply V_nonce; auto; lia|intros ? ? (-> & ?)].
  eapply V_bind; [vprim|intros ? ? (-> & -> & ?)].
  apply V_guard; [intros X; apply Nat.ltb_lt in X; now apply Nat.lt_nge|intros X; apply Nat.ltb_ge in X; exact X|intros _ _].
  eapply V_bind; [apply V_under, V_opaque; auto|intros ? ? (-> & ?)].
  destruct signed.
  - eapply V_last with (Q1 := any); [eapply V_last; [apply V_slice; auto|intros; vend]|intros; vend].
  - vend.
Qed.

(** ** Errors that are misnamed, and errors that are never returned *)
(** The row's verdict allows this error. *)
Definition allows {E} (c : check E) (e : E) : Prop := match snd c with Refuse why => why e | _ => False end.
Lemma never_allowed {E A} (parse : list N -> res E A) table e : reports parse table ->
  (forall buf, Forall (fun c => ~ allows c e) (table buf)) -> forall buf, bytes buf -> parse buf <> Err e.
Proof.
  intros R F buf Hb X. destruct (R buf Hb) as [(v & H) K]. specialize (K v H). rewrite X in K. specialize (F buf).
  destruct v as [|why|]; cbn [ended] in K; try contradiction.
  remember (Refuse why) as w eqn:Ew. induction H; inversion F; subst; try discriminate.
  - match goal with H : ~ allows _ _ |- _ => now apply H end.
  - auto.
Qed.
Lemma allows_under {E F} (f : E -> F) cs e : (forall x, e <> f x) -> Forall (fun c => ~ allows c e) (under f cs).
Proof.
  intros H. apply Forall_map. apply Forall_forall. intros [P [|why|]] _; unfold allows; cbn; try tauto. intros (x & -> & _). now apply (H x).
Qed.
(** A CHALLENGE_AUTH for a slot that does not exist is reported as one with too
    much opaque data; the error that names the slot is never returned
    (src/msgs/challenge.rs:233-235). *)
Theorem C73_challenge_auth_slot_misnamed ds ss buf : bytes buf ->
  challenge_auth_parse_body buf ds ss <> Err PCAMaxSlotNumberExceeded /\
  (0 < length buf -> NUM_SLOTS < N.to_nat (byte_at buf 0 mod 16) -> challenge_auth_parse_body buf ds ss = Err PCAMaxOpaqueDataSizeExceeded).
Proof.
  intros Hb. split.
  - apply (never_allowed _ _ _ (C73_challenge_auth ds ss)); [|exact Hb]. intros b. unfold challenge_auth_table. cbv zeta.
    repeat (apply Forall_app; split); try (now apply allows_under); repeat constructor; intros X; discriminate X.
  - intros L S1. destruct (C73_challenge_auth ds ss buf Hb) as [_ K].
    assert (F : first_failing (challenge_auth_table buf ds ss) (Refuse (is PCAMaxOpaqueDataSizeExceeded))).
    { apply holds_here; [lia|]. apply fails_here. lia. }
    specialize (K _ F). destruct (challenge_auth_parse_body buf ds ss) as [a|e|p]; cbn [ended] in K; [contradiction| |contradiction].
    now rewrite K.
Qed.
(** The error for the representation of a measurement is never returned: one
    bit cannot be wrong. *)
Lemma allows_none {E} (t : list (check E)) e : (forall c, In c t -> ~ allows c e) -> Forall (fun c => ~ allows c e) t.
Proof. intros. now apply Forall_forall. Qed.
Lemma under_allows {E F} (f : E -> F) cs e : (forall x y, f x = f y -> x = y) -> Forall (fun c => ~ allows c e) cs -> Forall (fun c => ~ allows c (f e)) (under f cs).
Proof.
  intros Inj H. apply Forall_map. eapply Forall_impl; [|exact H]. intros [P [|why|]]; unfold allows; cbn; try tauto.
  intros Hn (x & X & W). apply Inj in X as <-. auto.
Qed.
Theorem C73_representation_error_never signed ss buf : bytes buf ->
  measurements_parse_body buf signed ss <> Err (PMBlocks (PMBsBlock (PMBMeasurement PDMRepresentation))).
Proof.
  apply (never_allowed _ _ _ (C73_measurements signed ss)). intros b. unfold measurements_table. cbv zeta.
  repeat (apply Forall_app; split); try (apply allows_under; discriminate); try (repeat constructor; intros X; discriminate X).
  2: { destruct signed; [|constructor]. repeat constructor. intros X; discriminate X. }
  apply under_allows; [congruence|]. unfold blocks_table.
  repeat (apply Forall_app; split); try (repeat constructor; intros X; discriminate X).
  assert (K : forall n i k, Forall (fun c => ~ allows c (PMBsBlock (PMBMeasurement PDMRepresentation))) (record_table b n i k)); [|apply K].
  induction n as [|n IH]; intros i k; cbn [record_table]; [constructor|].
  apply Forall_app; split; [|apply Forall_app; split; [constructor; [intros []|constructor]|apply IH]].
  apply under_allows; [congruence|]. unfold block_table.
  repeat (apply Forall_app; split); try (repeat constructor; intros X; discriminate X).
  apply under_allows; [congruence|]. unfold dmtf_table.
  repeat (apply Forall_app; split); try (repeat constructor; intros X; discriminate X).
  destruct (_ <? _)%N; repeat constructor; intros X; discriminate X.
Qed.
End Faults.

(** ** Concrete messages: the row in the middle of the table that fails *)
Section Examples.
#[local] Instance ex_cfg : Config := sample_cfg.
Example C73_example_version :
  first_failing (version_table [0; 0; 0; 3]%N) (Refuse (is TooManyVersionsReceived)) /\
  version_parse_body [0; 0; 0; 3]%N = Err TooManyVersionsReceived.
Proof.
  split; [|reflexivity]. unfold version_table, rsvd, has, or_else. cbn.
  repeat (apply holds_here; [first [lia|reflexivity]|]). apply fails_here. unfold byte_at. cbn. lia.
Qed.
(** 2 of the 4 announced bytes: the second version entry is missing. *)
Example C73_example_version_short : version_parse_body [0; 0; 0; 2; 0; 0x11]%N = Err (PVRead BufferEmpty).
Proof. reflexivity. Qed.
Example C73_example_capabilities : capabilities_parse_body [0; 0; 0; 9; 0; 7; 0; 0; 0; 128]%N = Err (CapRead ReservedByteNotZero) /\
  capabilities_parse_body [0; 0; 0; 9; 0; 0; 0; 0; 0; 128]%N = Err CapInvalidBitsSet.
Proof. split; reflexivity. Qed.
Definition one_dhe (bits : N) : list N :=
  [1; 0; 60; 0; 1; 0; 1; 0; 0; 0; 1; 0; 0; 0; 1; 0; 0; 0]%N ++ repeat 0%N 16 ++ [2; 32; bits; 0]%N.
Example C73_example_algorithms :
  algorithms_parse_body (one_dhe 3) = Err (PAAlgorithmsResponse MoreThanOneDheAlgoSelected) /\
  algorithms_parse_body (one_dhe 64) = Err (PAAlgorithmsRequest InvalidFixedAlgorithm) /\
  (exists m, algorithms_parse_body (one_dhe 16) = Ok m).
Proof. repeat split; try (vm_compute; reflexivity). eexists. vm_compute. reflexivity. Qed.
Example C73_example_chain :
  chain_parse [10; 0; 0; 0; 7; 7; 0x30; 0x81; 127; 0]%N 2 = Err BadDerEncoding /\
  chain_parse [10; 0; 0; 0; 7; 7; 0x30; 5; 127; 0]%N 2 = Err LengthMismatch /\
  chain_parse [10; 0; 0; 0; 7; 7; 0x31; 2; 127; 0]%N 2 = Panic PAssert /\
  (exists c, chain_parse [10; 0; 0; 0; 7; 7; 0x30; 2; 127; 0]%N 2 = Ok c).
Proof. repeat split; try (vm_compute; reflexivity). eexists. vm_compute. reflexivity. Qed.
Example C73_example_challenge_auth : challenge_auth_parse_body [9; 1]%N 0 0 = Err PCAMaxOpaqueDataSizeExceeded /\
  bytes [9; 1]%N /\ 0 < length [9; 1]%N /\ NUM_SLOTS < N.to_nat (byte_at [9; 1]%N 0 mod 16).
Proof. repeat split; try (vm_compute; reflexivity); [apply bytes_check; reflexivity|apply Nat.ltb_lt; reflexivity|apply Nat.ltb_lt; vm_compute; reflexivity]. Qed.
(** A record whose second block has the wrong size. *)
Example C73_example_measurements :
  measurements_parse_body ([0; 0x20; 2; 16; 0; 0;  1; 1; 4; 0; 1; 1; 0; 9;  2; 1; 5; 0; 1; 1; 0; 9]%N ++ repeat 0%N 40) false 0 =
  Err (PMBlocks (PMBsBlock PMBMeasurementSizeMismatch)).
Proof. vm_compute. reflexivity. Qed.
End Examples.
Print Assumptions C73_measurements.
Print Assumptions C73_challenge_auth.
Print Assumptions C73_challenge_auth_slot_misnamed.
Print Assumptions C73_certificate_chain.
