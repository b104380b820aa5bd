(** C74: which error a writer returns.  The writer of every message ends, for
    every value of the message and every buffer, as the first failing row of the
    message's table (SpecWriteFaults) says: with that row's error, with a panic,
    or, when no row fails, with the size of the message. *)
From Verif Require Import Base BaseLemmas Config Encoding MsgCommon MsgVersion MsgCapabilities MsgAlgorithms MsgDigest
     MsgCertificates MsgChallenge MsgError MsgMeasurements SpecWire SpecChecks SpecFaults SpecWriteFaults FlagLemmas
     FaultLogic VerdictLogic WriterLogic GramBasic GramAlg GramOpaque GramDigest GramCert GramChal GramMeas PropTools PropVersionCaps PropAlg
     PropCerts PropChal PropMeas Sample.

(** On [buf] the writer ends as the table says. *)
Definition writer_reports {E} (wr : list N -> res E nat * list N) (table : nat -> list (check E)) (size : nat) : Prop :=
  forall buf, (exists v, first_failing (table (length buf)) v) /\
    forall v, first_failing (table (length buf)) v ->
      ended v (fst (wr buf)) /\ (v = Answer -> fst (wr buf) = Ok size).

Section W.
Context {cfg : Config}.
(** The writer has got to [o] in a buffer of [room] bytes. *)
Definition at_w (room o : nat) (w : Writer) : Prop := w_wf w /\ length (w_buf w) = room /\ w_off w = o.
Definition got {A} (room o : nat) (a : A) : A -> Writer -> Prop := fun x w => x = a /\ at_w room o w.

Lemma V_emits {E A} room o (m : M Writer E A) full bs a w n : emits o m full bs a -> at_w room o w -> o + length bs = n ->
  V (up_to room n full) (m w) (got room n a).
Proof.
  intros H (W1 & W2 & W3) <-. destruct (H w W1 W3) as [HA HB]. rewrite W2 in HA, HB.
  destruct (Nat.le_gt_cases (o + length bs) room) as [L|L].
  - rewrite (HA L). apply V_hold; [exact L|]. apply V_nil. split; [reflexivity|]. split; [apply w_app_wf; lia|].
    split; [rewrite w_app_len; lia|unfold w_app; cbn [w_off]; lia].
  - destruct (HB L) as (k & _ & _ & ->). apply V_refuse. lia.
Qed.
(** A part of what the next row is about. *)
Lemma V_part {E A B} room o (m : M Writer E A) (k : A -> M Writer E B) full bs a w n to_ cs Q :
  emits o m full bs a -> at_w room o w -> o + length bs = n -> n <= to_ ->
  (forall s, at_w room n s -> V (up_to room to_ full ++ cs) (k a s) Q) ->
  V (up_to room to_ full ++ cs) (bind m k w) Q.
Proof.
  intros H W EL L K. destruct (V_emits room o m full bs a w n H W EL) as [[F (x & s & E1 & -> & W')]|(pre & P & v & post & E1 & F & N1 & A1 & M1)].
  - unfold bind. rewrite E1. apply K. exact W'.
  - assert (pre = [] /\ P = (n <= room) /\ v = Refuse (is full)) as (-> & -> & ->).
    { destruct pre as [|? [|]]; cbn in E1; [|discriminate|discriminate]. injection E1 as <- <- _. auto. }
    unfold bind. destruct (m w) as [[x|x|x] s]; cbn [fst ended] in M1; try contradiction. unfold is in M1. subst x.
    apply V_refuse. lia.
Qed.
Lemma V_part' {E A B} room o (m : M Writer E A) (k : A -> M Writer E B) full bs a w n to_ Q :
  emits o m full bs a -> at_w room o w -> o + length bs = n -> n <= to_ ->
  (forall s, at_w room n s -> V (up_to room to_ full) (k a s) Q) -> V (up_to room to_ full) (bind m k w) Q.
Proof.
  intros H W EL L K. rewrite <- (app_nil_r (up_to room to_ full)). eapply V_part; [exact H|exact W|exact EL|exact L|]. intros s Hs. rewrite app_nil_r. now apply K.
Qed.
(** The row is done. *)
Lemma V_done {E A} room o (full : E) cs (x : res E A * Writer) w Q : at_w room o w -> V cs x Q -> V (up_to room o full ++ cs) x Q.
Proof. intros (W1 & W2 & W3) H. apply V_hold; [|exact H]. unfold w_wf in W1. lia. Qed.
Lemma V_pass {St E A B} cs (r : res E A) (k : A -> M St E B) c a Q : r = Ok a -> V cs (k a c) Q -> V cs (bind (lift r) k c) Q.
Proof. intros E1 H. unfold bind, lift. now rewrite E1. Qed.
Lemma V_stop {St E A B} (P : Prop) cs (r : res E A) (k : A -> M St E B) c p Q : r = Panic p -> ~ P -> V (or_crash P :: cs) (bind (lift r) k c) Q.
Proof. intros E1 H. unfold bind, lift. rewrite E1. now apply V_crash. Qed.

Lemma verdict_of {E} cs (o : res E nat * Writer) size : V cs o (fun x _ => x = size) ->
  (exists v, first_failing cs v) /\ forall v, first_failing cs v -> ended v (fst o) /\ (v = Answer -> fst o = Ok size).
Proof.
  intros H. destruct (V_verdict _ _ _ H) as (v & F & M1). split; [eauto|]. intros v' F'. rewrite (first_failing_unique _ _ _ F' F).
  split; [exact M1|]. intros ->. destruct H as [[_ (a & s & -> & ->)]|(pre & P & v2 & post & E1 & F2 & N1 & A1 & M2)]; [reflexivity|].
  exfalso. destruct (fst o); cbn [ended] in M1; try contradiction. destruct v2; auto.
Qed.
Lemma at_start buf : at_w (length buf) 0 (writer_new buf).
Proof. split; [unfold w_wf; cbn; lia|split; reflexivity]. Qed.
Lemma writer_intro {E} id (from : BufferFullError -> E) (body : M Writer E nat) table size :
  (forall room w, at_w room 0 w -> V (table room) ((map_err from (write_header id) ;;; body) w) (fun x _ => x = size)) ->
  writer_reports (write_msg id from body) table size.
Proof.
  intros H buf. specialize (H (length buf) (writer_new buf) (at_start buf)). apply verdict_of in H. unfold write_msg.
  destruct ((map_err from (write_header id) ;;; body) (writer_new buf)) as [r w']. exact H.
Qed.
Lemma writer_on {E} (m : M Writer E nat) table size :
  (forall room w, at_w room 0 w -> V (table room) (m w) (fun x _ => x = size)) -> writer_reports (write_on m) table size.
Proof.
  intros H buf. specialize (H (length buf) (writer_new buf) (at_start buf)). apply verdict_of in H. unfold write_on.
  destruct (m (writer_new buf)) as [r w']. exact H.
Qed.
(** A message written in one go. *)
Lemma writer_plain {E} id (from : BufferFullError -> E) (body : M Writer E nat) bs size :
  emits 2 body (from BufferFull) bs (2 + length bs) -> 2 + length bs = size ->
  writer_reports (write_msg id from body) (fun room => up_to room size (from BufferFull)) size.
Proof.
  intros H <-. apply writer_intro. intros room w W.
  eapply V_part'; [eapply emits_map_err; [apply emits_header|reflexivity]|exact W|reflexivity|cbn; lia|]. intros s Ws. cbn [length Nat.add] in *.
  eapply V_post; [eapply V_emits; [exact H|exact Ws|reflexivity]|]. intros a s' [-> _]. reflexivity.
Qed.
End W.

(** * Steps of a known length *)
Section Steps.
Context {cfg : Config}.
Definition adv {E A} (m : M Writer E A) (full : E) (n : nat) : Prop := forall o, exists bs a, emits o m full bs a /\ length bs = n.
Lemma adv_put b : adv (put b) BufferFull 1.
Proof. intros o. eexists _, _. split; [apply emits_put|reflexivity]. Qed.
Lemma adv_reserved n : adv (put_reserved n) BufferFull n.
Proof. intros o. eexists _, _. split; [apply emits_put_reserved|apply repeat_length]. Qed.
Lemma adv_u16 x : adv (put_u16 x) BufferFull 2.
Proof. intros o. eexists _, _. split; [apply emits_put_u16|reflexivity]. Qed.
Lemma adv_u24 x : adv (put_u24 x) BufferFull 3.
Proof. intros o. eexists _, _. split; [apply emits_put_u24|reflexivity]. Qed.
Lemma adv_u32 x : adv (put_u32 x) BufferFull 4.
Proof. intros o. eexists _, _. split; [apply emits_put_u32|reflexivity]. Qed.
Lemma adv_extend l : adv (w_extend l) BufferFull (length l).
Proof. intros o. eexists _, _. split; [apply emits_extend|reflexivity]. Qed.
Lemma adv_header id : adv (write_header id) BufferFull 2.
Proof. intros o. eexists _, _. split; [apply emits_header|reflexivity]. Qed.
Lemma adv_map {E F A} (f : E -> F) (m : M Writer E A) full full' n : adv m full n -> f full = full' -> adv (map_err f m) full' n.
Proof. intros H <- o. destruct (H o) as (bs & a & H1 & H2). exists bs, a. split; [eapply emits_map_err; [exact H1|reflexivity]|exact H2]. Qed.
Lemma adv_ret {E A} (full : E) (a : A) : adv (ret a) full 0.
Proof. intros o. eexists _, _. split; [apply emits_ret|reflexivity]. Qed.
Lemma adv_bind {E A B} (m : M Writer E A) (k : A -> M Writer E B) full n n' :
  adv m full n -> (forall a, adv (k a) full n') -> adv (bind m k) full (n + n').
Proof.
  intros H K o. destruct (H o) as (bs & a & H1 & <-). destruct (K a (o + length bs)) as (bs' & a' & H3 & <-).
  exists (bs ++ bs'), a'. split; [eapply emits_bind; eauto|apply app_length].
Qed.
Lemma adv_iter {E A} (f : A -> M Writer E unit) full n l : (forall x, adv (f x) full n) -> adv (iterM l f) full (n * length l).
Proof.
  intros H. induction l as [|x l IH]; cbn [iterM length].
  - rewrite Nat.mul_0_r. apply adv_ret.
  - replace (n * S (length l)) with (n + n * length l) by lia. apply adv_bind; auto.
Qed.
Lemma V_adv {E A B} room o (m : M Writer E A) (k : A -> M Writer E B) full w n to_ cs Q :
  adv m full n -> at_w room o w -> o + n <= to_ ->
  (forall a s, at_w room (o + n) s -> V (up_to room to_ full ++ cs) (k a s) Q) ->
  V (up_to room to_ full ++ cs) (bind m k w) Q.
Proof.
  intros H W L K. destruct (H o) as (bs & a & H1 & H2). eapply V_part; [exact H1|exact W|rewrite H2; reflexivity|exact L|]. intros s Hs. apply K. exact Hs.
Qed.
Lemma V_adv' {E A B} room o (m : M Writer E A) (k : A -> M Writer E B) full w n to_ Q :
  adv m full n -> at_w room o w -> o + n <= to_ ->
  (forall a s, at_w room (o + n) s -> V (up_to room to_ full) (k a s) Q) ->
  V (up_to room to_ full) (bind m k w) Q.
Proof.
  intros H W L K. rewrite <- (app_nil_r (up_to room to_ full)). eapply V_adv; [exact H|exact W|exact L|]. intros a s Hs. rewrite app_nil_r. now apply K.
Qed.
(** The last step. *)
Lemma V_stepN {E A} room o (m : M Writer E A) full w n t : adv m full n -> at_w room o w -> o + n = t ->
  V (up_to room t full) (m w) (fun _ s => at_w room t s).
Proof.
  intros H W <-. destruct (H o) as (bs & a & H1 & H2). eapply V_post; [eapply V_emits; [exact H1|exact W|rewrite H2; reflexivity]|].
  intros x s [_ X]. exact X.
Qed.
Lemma V_offset {E} room o w cs size : at_w room o w -> cs = [] -> o = size -> @V E Writer nat cs (w_offset w) (fun x _ => x = size).
Proof. intros (_ & _ & <-) -> <-. apply V_nil. reflexivity. Qed.
Lemma V_offset_up {E} room o w (full : E) size : at_w room o w -> o = size -> V (up_to room size full) (w_offset w) (fun x _ => x = size).
Proof. intros W <-. rewrite <- (app_nil_r (up_to _ _ _)). eapply V_done; [exact W|]. eapply V_offset; [exact W|reflexivity|reflexivity]. Qed.
Lemma V_at {E A} room o o' (full : E) cs (x : res E A * Writer) w Q : at_w room o w -> o = o' -> V cs x Q -> V (up_to room o' full ++ cs) x Q.
Proof. intros W <-. eapply V_done; exact W. Qed.
End Steps.

Ltac advs := first [apply adv_put|apply adv_reserved|apply adv_u16|apply adv_u24|apply adv_u32|apply adv_extend|apply adv_header].
Ltac adv1 := first [advs|eapply adv_map; [advs|reflexivity]].
Ltac wstep := first [eapply V_adv|eapply V_adv']; [adv1|eassumption|lia|let H := fresh "W" in intros ? ? H; rewrite <- ?Nat.add_assoc in H; cbn [Nat.add] in H].

Section Write.
Context {cfg : Config}.
Lemma at_eq room o o' w : at_w room o w -> o = o' -> at_w room o' w.
Proof. now intros H <-. Qed.

(** * Plain messages *)
Definition bad_room {E} (size : nat) (full : E) : nat -> list (check E) := fun room => up_to room size full.
Lemma plain_of {E} id (from : BufferFullError -> E) (body : M Writer E nat) bs n size :
  emits 2 body (from BufferFull) bs n -> n = 2 + length bs -> 2 + length bs = size ->
  writer_reports (write_msg id from body) (bad_room size (from BufferFull)) size.
Proof. intros H -> L. eapply writer_plain; eauto. Qed.
Theorem C74_get_version : writer_reports write_get_version (fun room => plain_write_table room 4) 4.
Proof. apply (plain_of GetVersion_id (fun e => e) _ _ _ 4 (emits_get_version 2)); reflexivity. Qed.
Theorem C74_get_digests : writer_reports write_get_digests (fun room => plain_write_table room 4) 4.
Proof. apply (plain_of GetDigests_id (fun e => e) _ _ _ 4 (emits_get_digests 2)); reflexivity. Qed.
Theorem C74_get_capabilities m : writer_reports (write_get_capabilities m) (fun room => plain_write_table room 12) 12.
Proof. apply (plain_of GetCapabilities_id (fun e => e) _ _ _ 12 (emits_caps 2 _ _)); reflexivity. Qed.
Theorem C74_capabilities m : writer_reports (write_capabilities m) (fun room => plain_write_table room 12) 12.
Proof. apply (plain_of Capabilities_id (fun e => e) _ _ _ 12 (emits_caps 2 _ _)); reflexivity. Qed.
Theorem C74_get_certificate m : writer_reports (write_get_certificate m) (fun room => plain_write_table room 8) 8.
Proof. apply (plain_of GetCertificate_id (fun e => e) _ _ _ 8 (emits_get_certificate m 2)); reflexivity. Qed.
Theorem C74_challenge m : let size := 4 + length (ch_nonce m) in
  writer_reports (write_challenge m) (fun room => plain_write_table room size) size.
Proof. apply (plain_of Challenge_id (fun e => e) _ _ _ _ (emits_challenge m 2)); [reflexivity|unfold challenge_layout; rewrite !app_length; reflexivity]. Qed.
Theorem C74_error m : writer_reports (write_error m) (fun room => plain_write_table room (error_size m)) (error_size m).
Proof.
  apply (plain_of Error_id (fun e => e) _ _ _ _ (emits_error m 2)); [reflexivity|].
  destruct m; try reflexivity. unfold error_layout, error_ext, error_size. rewrite !app_length. cbn [length]. lia.
Qed.
Theorem C74_version v : let size := 6 + 2 * length (v_entries v) in
  writer_reports (write_version v) (fun room => plain_write_table room size) size.
Proof.
  cbv zeta. apply writer_intro. intros room w W. unfold plain_write_table, version_write_body. repeat wstep.
  eapply V_adv'; [apply (adv_iter _ _ 2); intros x; unfold ve_write; apply (adv_bind _ _ _ 1 1); [adv1|intros ?; apply (adv_bind _ _ _ 1 0); [adv1|intros; apply adv_ret]]|eassumption|lia|].
  intros ? s' W'. eapply V_offset_up; [exact W'|lia].
Qed.

(** * NEGOTIATE_ALGORITHMS, ALGORITHMS *)
Lemma adv_struct a : adv (ar_write a) BufferFull 4.
Proof. intros o. eexists _, _. split; [apply emits_ar|]. rewrite alg_struct_bytes_noext. destruct a; reflexivity. Qed.
Lemma adv_structs l : forall n i, i + n <= length l -> adv (write_alg_structs n i l) BufferFull (4 * n).
Proof.
  induction n as [|n IH]; intros i L; cbn [write_alg_structs]; [apply adv_ret|].
  destruct (nth_error l i) as [a|] eqn:E1; [|apply nth_error_None in E1; lia].
  replace (4 * S n) with (4 + 4 * n) by lia. apply adv_bind; [apply adv_struct|intros _; apply IH; lia].
Qed.
Lemma alg_length_cases {E} base num l :
  (N.to_nat num <= length l /\ exists x, @alg_msg_length E base num l = Ok x) \/
  (~ N.to_nat num <= length l /\ @alg_msg_length E base num l = Panic PIndex).
Proof. unfold alg_msg_length. destruct (Nat.leb_spec (N.to_nat num) (length l)); [left; eauto|right; split; [lia|reflexivity]]. Qed.
Theorem C74_negotiate_algorithms m : let n := N.to_nat (na_num_requests m) in
  writer_reports (write_negotiate_algorithms m) (fun room => structures_write_table room 32 n (length (na_requests m))) (32 + 4 * n).
Proof.
  cbv zeta. apply writer_intro. intros room w W. unfold structures_write_table, negotiate_algorithms_write_body. repeat wstep.
  eapply V_done; [eassumption|].
  destruct (@alg_length_cases BufferFullError 32 (na_num_requests m) (na_requests m)) as [[L (x & EX)]|[L EX]].
  - eapply V_pass; [exact EX|]. apply V_hold; [exact L|]. repeat wstep.
    eapply V_adv'; [apply adv_structs; exact L|eassumption|lia|]. intros a' s' W'. eapply V_offset_up; [exact W'|lia].
  - eapply V_stop; [exact EX|exact L].
Qed.
Theorem C74_algorithms m : let n := N.to_nat (al_num_responses m) in
  writer_reports (write_algorithms m) (fun room => structures_write_table room 36 n (length (al_responses m))) (36 + 4 * n).
Proof.
  cbv zeta. apply writer_intro. intros room w W. unfold structures_write_table, algorithms_write_body. repeat wstep.
  eapply V_done; [eassumption|].
  destruct (@alg_length_cases BufferFullError 36 (al_num_responses m) (al_responses m)) as [[L (x & EX)]|[L EX]].
  - eapply V_pass; [exact EX|]. apply V_hold; [exact L|]. repeat wstep.
    eapply V_adv'; [apply adv_structs; exact L|eassumption|lia|]. intros a' s' W'. eapply V_offset_up; [exact W'|lia].
  - eapply V_stop; [exact EX|exact L].
Qed.

(** * DIGESTS *)
Lemma V_digests room d : NUM_SLOTS <= 8 -> forall fuel bits o w, (bits < 256)%N -> length (mask_slots NUM_SLOTS bits) <= fuel -> at_w room o w ->
  V (digests_rows room d (mask_slots NUM_SLOTS bits) o) (write_digests_loop fuel bits (d_digests d) o w)
    (fun x _ => x = o + length (concat (map (slot_digest d) (mask_slots NUM_SLOTS bits)))).
Proof.
  intros NS8. induction fuel as [|fuel IH]; intros bits o w Hbits Hf W;
    pose proof (mask_step NUM_SLOTS bits NS8 Hbits) as St; unfold mask_step_check in St; cbn [write_digests_loop].
  - destruct (mask_slots NUM_SLOTS bits); [|simpl in Hf; lia].
    apply Nat.leb_le in St. destruct (Nat.ltb_spec (trailing_zeros 8 bits) NUM_SLOTS); [lia|]. apply V_nil. cbn. lia.
  - destruct (mask_slots NUM_SLOTS bits) as [|k ks] eqn:Ek.
    + apply Nat.leb_le in St. destruct (Nat.ltb_spec (trailing_zeros 8 bits) NUM_SLOTS); [lia|]. apply V_nil. cbn. lia.
    + rewrite !andb_true_iff in St. destruct St as ((((S1 & S2) & S3) & S4) & S5).
      apply Nat.eqb_eq in S1. apply Nat.ltb_lt in S2, S3. apply N.ltb_lt in S4. apply nlist_eqb_eq in S5.
      rewrite S1. destruct (Nat.ltb_spec k NUM_SLOTS); [|lia].
      unfold xor_bit, shl8, shamt8. destruct (Nat.ltb_spec k 8); [|lia]. cbn [rmap digests_rows].
      destruct (nth_error (d_digests d) k) as [[digest|]|] eqn:E1; [|eapply V_stop; [reflexivity|tauto]..].
      eapply V_pass; [reflexivity|]. eapply V_part; [apply emits_extend|exact W|reflexivity|lia|]. intros s Ws.
      eapply V_done; [exact Ws|]. eapply V_pass; [reflexivity|].
      specialize (IH (N.lxor bits (N.shiftl 1 (N.of_nat k) mod 256)) (o + length digest) s S4). rewrite S5 in IH.
      eapply V_post; [apply IH; [simpl in Hf; lia|exact Ws]|]. intros x _ ->. cbn [map concat]. rewrite app_length.
      unfold slot_digest at 2. rewrite E1. lia.
Qed.
Theorem C74_digests d : NUM_SLOTS <= 8 -> is_byte (d_slot_mask d) ->
  writer_reports (write_digests_msg d) (fun room => digests_write_table room d) (digests_size d).
Proof.
  intros NS8 HB. apply writer_intro. intros room w W. unfold digests_write_table, digests_write_body, write_digests. repeat wstep.
  eapply V_done; [eassumption|]. change (filter (slot_in_mask (d_slot_mask d)) (seq 0 NUM_SLOTS)) with (mask_slots NUM_SLOTS (d_slot_mask d)).
  match goal with H : at_w room 4 _ |- _ => rename H into W4; pose proof W4 as (_ & _ & E4) end.
  eapply V_step; [unfold w_offset, gets; rewrite E4; reflexivity|].
  eapply V_post; [apply V_digests; [exact NS8|exact HB|pose proof (mask_slots_length NUM_SLOTS (d_slot_mask d)); lia|exact W4]|].
  intros x s' ->. reflexivity.
Qed.

(** * CERTIFICATE and chains *)
Theorem C74_certificate m :
  writer_reports (write_certificate m) (fun room => certificate_write_table room m) (8 + N.to_nat (cert_portion_length m)).
Proof.
  apply writer_intro. intros room w W. unfold certificate_write_table, certificate_write_body. cbv zeta. repeat wstep.
  eapply V_done; [eassumption|]. destruct (Nat.ltb_spec (length (cert_chain m)) (N.to_nat (cert_portion_length m))) as [L|L].
  - apply V_crash. lia.
  - apply V_hold; [exact L|]. eapply V_post; [eapply V_emits; [apply emits_extend|eassumption|rewrite firstn_length; lia]|].
    intros x s' [-> _]. rewrite firstn_length. lia.
Qed.
Theorem C74_certificate_chain c :
  writer_reports (write_on (chain_write c)) (fun room => chain_write_table room c) (length (chain_bytes c)).
Proof.
  apply writer_on. intros room w W. unfold chain_write_table.
  destruct (N.lt_ge_cases 65535 (N.of_nat (length (chain_bytes c)))) as [G|G].
  - rewrite chain_write_too_long by auto. apply V_refuse. lia.
  - apply V_hold; [lia|]. eapply V_post; [eapply V_emits; [apply (emits_chain c 0); lia|exact W|reflexivity]|]. intros x s' [-> _]. reflexivity.
Qed.

(** * Opaque data *)
Lemma V_under' {E F A B} (f : E -> F) cs1 cs2 (m : M Writer E A) (k : A -> M Writer F B) c Q1 Q2 :
  V cs1 (m c) Q1 -> (forall a s, Q1 a s -> V cs2 (k a s) Q2) -> V (under f cs1 ++ cs2) (bind (map_err f m) k c) Q2.
Proof. intros H K. eapply V_bind; [apply V_under; exact H|exact K]. Qed.
Lemma adv_vendor v : adv (vendor_id_write v) BufferFull (1 + length (vendor_id_bytes v)).
Proof. intros o. eexists _, _. split; [apply emits_vendor_id|reflexivity]. Qed.
Lemma V_elements room : forall d k w, at_w room k w ->
  V (elements_write_table room d k) (iterM d oe_write w) (fun _ s => at_w room (k + fold_right (fun e n => written_size e + n) 0 d) s).
Proof.
  induction d as [|e d IH]; intros k w W; cbn [elements_write_table iterM fold_right].
  - apply V_nil. now rewrite Nat.add_0_r.
  - rewrite !app_assoc. eapply V_then with (Q1 := fun _ s => at_w room (k + written_size e) s).
    + unfold oe_write. rewrite <- !app_assoc. wstep.
      eapply V_part; [eapply emits_map_err; [apply emits_vendor_id|reflexivity]|eassumption|reflexivity| |].
      { unfold vendor_id_wire. rewrite app_length. cbn [length]. lia. }
      intros s1 W1. unfold vendor_id_wire in W1. rewrite app_length in W1. cbn [length] in W1.
      eapply V_at; [exact W1|lia|]. unfold ensure_vendor_id_len. rewrite registry_len_eq.
      destruct (N.eqb_spec (N.of_nat (length (vendor_id_bytes (oe_vendor e)))) (N.of_nat (registry_id_len (oe_registry e)))) as [E1|E1].
      * apply V_hold; [unfold vendor_matches; lia|]. eapply V_step; [reflexivity|]. rewrite Nat2N.id, oe_padding_eq.
        unfold written_size, padded. wstep. wstep. wstep. rewrite <- (app_nil_r (up_to _ _ _)). eapply V_at; [eassumption|lia|].
        apply V_nil. match goal with H : at_w room ?o ?s |- at_w room ?o' ?s => replace o' with o by lia; exact H end.
      * unfold bind, map_err, lift. apply V_refuse. unfold vendor_matches. lia.
    + intros _ s Ws. eapply V_post; [apply IH; exact Ws|]. intros a1 s1 W1. now rewrite Nat.add_assoc.
Qed.

Lemma V_opaque room d k w : at_w room k w ->
  V (opaque_write_table room d k) (od_write d w) (fun _ s => at_w room (k + written_sizes d) s).
Proof.
  intros W. unfold opaque_write_table, od_write. wstep. wstep. eapply V_at; [eassumption|lia|].
  eapply V_post; [apply V_elements; eassumption|]. intros a9 s9 Ws. unfold written_sizes.
  eapply at_eq; [exact Ws|lia].
Qed.
Lemma counted_of d : od_serialized_size d = counted_sizes d.
Proof.
  unfold od_serialized_size, counted_sizes. f_equal.
  assert (G : forall l k, fold_left (fun acc e => acc + oe_serialized_size e) l k = k + fold_right (fun e n => counted_size e + n) 0 l).
  { induction l as [|e l IH]; intros k; cbn [fold_left fold_right]; [lia|]. rewrite IH.
    unfold oe_serialized_size, counted_size, padded. rewrite registry_len_eq, Nat2N.id, oe_padding_eq. lia. }
  apply (G d 0).
Qed.
Theorem C74_opaque_data d :
  writer_reports (write_on (od_write d ;;; w_offset)) (fun room => opaque_write_table room d 0) (written_sizes d).
Proof.
  apply writer_on. intros room w W. eapply V_last; [apply V_opaque; exact W|]. intros a9 s9 Ws. eapply V_offset; [exact Ws|reflexivity|reflexivity].
Qed.

(** * CHALLENGE_AUTH *)
Theorem C74_challenge_auth m :
  writer_reports (write_challenge_auth m) (fun room => challenge_auth_write_table room m) (challenge_auth_size m).
Proof.
  apply writer_intro. intros room w W. unfold challenge_auth_write_table, challenge_auth_write_body, challenge_auth_validate. cbv zeta. wstep.
  eapply V_at; [eassumption|reflexivity|]. rewrite counted_of. change 1024 with MAX_OPAQUE_DATA_SIZE.
  destruct (Nat.leb_spec NUM_SLOTS (N.to_nat (ca_slot m))) as [L|L]; [unfold bind, lift; apply V_refuse; lia|].
  apply V_hold; [exact L|].
  destruct (Nat.ltb_spec MAX_OPAQUE_DATA_SIZE (counted_sizes (ca_opaque_data m))) as [L2|L2]; [unfold bind, lift; apply V_refuse; lia|].
  apply V_hold; [exact L2|]. eapply V_pass; [reflexivity|].
  eapply V_adv; [instantiate (1 := 1); destruct (ca_use_mutual_auth m); adv1|eassumption|lia|]. intros ? ? W3. cbn [Nat.add] in W3.
  do 5 wstep. eapply V_at; [eassumption|lia|].
  eapply V_under'; [apply V_opaque; match goal with H : at_w room _ ?s |- at_w room _ ?s => eapply at_eq; [exact H|lia] end|].
  intros a9 s9 Ws. cbv beta in Ws. wstep. unfold challenge_auth_size. eapply V_offset_up; [eassumption|lia].
Qed.

(** * GET_MEASUREMENTS *)
Theorem C74_get_measurements m :
  writer_reports (write_get_measurements m) (fun room => get_measurements_write_table room m) (get_measurements_size m).
Proof.
  apply writer_intro. intros room w W. unfold get_measurements_write_table, get_measurements_write_body. wstep. wstep.
  eapply V_at; [eassumption|reflexivity|].
  assert (G : forall i s cs Q k, at_w room 3 s -> (forall n, V cs (k n s) Q) ->
    V (index_rows i ++ cs) (bind (map_err WGMMeasurementIndex (lift (mi_to_u8 i))) k s) (Q : nat -> Writer -> Prop)).
  { intros i s9 cs Q k W9 K. unfold bind, map_err, lift. destruct i as [| |value|value| |]; cbn [mi_to_u8 index_rows app]; try apply K.
    - destruct (N.ltb_spec value 1); cbn [orb]; [apply V_refuse; lia|]. destruct (N.ltb_spec 239 value); [apply V_refuse; lia|].
      apply V_hold; [lia|apply K].
    - destruct (N.ltb_spec value 240); cbn [orb]; [apply V_refuse; lia|]. destruct (N.ltb_spec 252 value); [apply V_refuse; lia|].
      apply V_hold; [lia|apply K]. }
  eapply G; [eassumption|]. intros n. wstep. eapply V_at; [eassumption|reflexivity|]. unfold get_measurements_size.
  destruct (ra_signature_requested (gm_attributes m)).
  - eapply V_last with (Q1 := fun _ s => at_w room (5 + optional_size (gm_nonce m)) s).
    + destruct (gm_nonce m) as [nonce|]; cbn [optional_size].
      * eapply V_pass; [reflexivity|]. apply V_hold; [discriminate|]. wstep. wstep.
        rewrite <- (app_nil_r (up_to _ _ _)). eapply V_at; [eassumption|lia|]. apply V_nil.
        match goal with H : at_w room _ ?s |- at_w room _ ?s => eapply at_eq; [exact H|lia] end.
      * eapply V_stop; [reflexivity|tauto].
    + intros a9 s9 Ws. eapply V_offset; [exact Ws|reflexivity|reflexivity].
  - eapply V_step; [reflexivity|]. eapply V_offset; [eassumption|reflexivity|reflexivity].
Qed.

(** * MEASUREMENTS *)
(** Rows that say as much. *)
Definition as_much {E} (c c' : check E) : Prop :=
  fst c = fst c' /\ (snd c <> Answer -> snd c' <> Answer) /\ forall A (r : res E A), ended (snd c) r -> ended (snd c') r.
Lemma V_rows {E St A} cs cs' (o : res E A * St) Q : Forall2 as_much cs cs' -> V cs o Q -> V cs' o Q.
Proof.
  intros F [[H1 H2]|(pre & P & v & post & -> & H1 & H2 & H3 & H4)].
  - left. split; [|exact H2]. clear H2. induction F as [|c c' cs cs' (E1 & _) _ IH]; [constructor|].
    inversion H1; subst. constructor; [now rewrite <- E1|auto].
  - right. apply Forall2_app_inv_l in F as (pre' & post' & F1 & F2 & ->). inversion F2 as [|? [P' v'] ? ? (E1 & E2 & E3) _]; subst. cbn [fst snd] in *. subst P'.
    eexists pre', P, v', _. split; [reflexivity|]. split; [|auto].
    clear - F1 H1. induction F1 as [|c c' cs cs' (E1 & _) _ IH]; [constructor|]. inversion H1; subst. constructor; [now rewrite <- E1|auto].
Qed.
Lemma as_much_full {E F} (f : E -> F) room n full cs cs' : Forall2 as_much (under f cs) cs' ->
  Forall2 as_much (under f (up_to room n full ++ cs)) (up_to room n (f full) ++ cs').
Proof.
  intros H. constructor; [|exact H]. split; [reflexivity|]. split; [discriminate|].
  intros A [a|e|p]; cbn; auto. intros (x & -> & ->). reflexivity.
Qed.
Lemma as_much_crash {E F} (f : E -> F) P cs cs' : Forall2 as_much (under f cs) cs' ->
  Forall2 as_much (under f ([or_crash P] ++ cs)) ([or_crash P] ++ cs').
Proof. intros H. constructor; [|exact H]. split; [reflexivity|]. split; [discriminate|]. auto. Qed.
Lemma as_much_blocks {E F} (f : E -> F) room full bl : forall k, 
  Forall2 as_much (under f (blocks_write_table room full bl k)) (blocks_write_table room (f full) bl k).
Proof.
  induction bl as [|b bl IH]; intros k; cbn [blocks_write_table]; [constructor|].
  apply as_much_full, as_much_crash, as_much_full, IH.
Qed.

Lemma V_block room b k w : at_w room k w ->
  V (up_to room (k + 2) BufferFull ++ [or_crash (N.of_nat (3 + value_size b) < 65536)%N] ++ up_to room (k + 7 + value_size b) BufferFull)
    (mb_write b w) (fun _ s => at_w room (k + 7 + value_size b) s).
Proof.
  intros W.
  assert (ML : mv_len (dm_value (mb_measurement b)) = value_size b) by (unfold value_size; destruct (dm_value (mb_measurement b)); reflexivity).
  unfold mb_write. wstep. wstep. eapply V_at; [eassumption|lia|].
  unfold dm_serialized_size. rewrite ML. unfold try_u16 at 1.
  destruct (N.ltb_spec (N.of_nat (3 + value_size b)) 65536) as [L|L]; [|eapply V_stop; [reflexivity|lia]].
  apply V_hold; [exact L|]. eapply V_pass; [reflexivity|]. wstep.
  unfold dm_write. wstep. rewrite ML. unfold try_u16. rewrite (proj2 (N.ltb_lt _ _)) by lia. eapply V_pass; [reflexivity|]. wstep.
  eapply V_stepN; [instantiate (1 := value_size b); unfold value_size; destruct (dm_value (mb_measurement b)); adv1|eassumption|lia].
Qed.
Lemma V_blocks room post : forall bl pre k w, at_w room k w ->
  V (blocks_write_table room BufferFull bl k) (mbs_write_loop (length bl) (length pre) (pre ++ map Some bl ++ post) w)
    (fun _ s => at_w room (k + blocks_size bl) s).
Proof.
  induction bl as [|b bl IH]; intros pre k w W; cbn [length mbs_write_loop map blocks_write_table blocks_size fold_right].
  - apply V_nil. now rewrite Nat.add_0_r.
  - rewrite nth_error_app2 by lia. rewrite Nat.sub_diag. cbn [app nth_error].
    change (or_crash (N.of_nat (3 + value_size b) < 65536)%N :: up_to room (k + 7 + value_size b) BufferFull ++ blocks_write_table room BufferFull bl (k + 7 + value_size b))
      with ([or_crash (N.of_nat (3 + value_size b) < 65536)%N] ++ up_to room (k + 7 + value_size b) BufferFull ++ blocks_write_table room BufferFull bl (k + 7 + value_size b)).
    rewrite !app_assoc. rewrite <- (app_assoc (up_to room (k + 2) BufferFull)). eapply V_then; [apply V_block; exact W|]. intros a1 s1 W1. cbv beta in W1.
    specialize (IH (pre ++ [Some b])). rewrite app_length in IH. cbn [length] in IH. rewrite <- app_assoc in IH. cbn [app] in IH.
    replace (length pre + 1) with (S (length pre)) in IH by lia.
    eapply V_post; [apply IH; exact W1|]. intros a2 s2 W2. eapply at_eq; [exact W2|]. unfold blocks_size. lia.
Qed.
Lemma size_cases {E} (b : MeasurementBlocks) :
  (exists bl post size, length bl = mbs_len b /\ mbs_blocks b = map Some bl ++ post /\ @mbs_serialized_size E b = Ok size) \/
  ((~ exists bl, cells_filled (mbs_len b) (mbs_blocks b) bl) /\ exists p, @mbs_serialized_size E b = Panic p).
Proof.
  unfold mbs_serialized_size, cells_filled. destruct (Nat.leb_spec (mbs_len b) (length (mbs_blocks b))) as [L|L]; [|right; split; [intros (bl & H & _); lia|eauto]].
  assert (PP : forall l p, fold_left (fun acc o => rbind acc (fun a => match o with Some x => Ok (a + mb_serialized_size x) | None => Panic PUnwrap end)) l
     (@Panic E nat p) = Panic p) by (induction l; intros; simpl; auto).
  assert (G : forall l k, (exists bl size, l = map Some bl /\
     fold_left (fun acc o => rbind acc (fun a => match o with Some x => Ok (a + mb_serialized_size x) | None => Panic PUnwrap end)) l (@Ok E nat k) = Ok size) \/
     ((~ exists bl, l = map Some bl) /\ exists p,
     fold_left (fun acc o => rbind acc (fun a => match o with Some x => Ok (a + mb_serialized_size x) | None => Panic PUnwrap end)) l (@Ok E nat k) = Panic p)).
  { induction l as [|[x|] l IH]; intros k; cbn [fold_left rbind].
    - left. exists [], k. auto.
    - destruct (IH (k + mb_serialized_size x)) as [(bl & size & -> & ->)|[H (p & ->)]].
      + left. exists (x :: bl), size. auto.
      + right. split; [|eauto]. intros ([|y bl] & E1); [discriminate|]. injection E1 as -> ->. eauto.
    - right. rewrite PP. split; [|eauto]. intros ([|y bl] & E1); discriminate. }
  destruct (G (firstn (mbs_len b) (mbs_blocks b)) 0) as [(bl & size & E1 & E2)|[H (p & E2)]]; rewrite E2.
  - left. exists bl, (skipn (mbs_len b) (mbs_blocks b)), size. split; [|split; [|auto]].
    + rewrite <- (map_length (@Some MeasurementBlock) bl), <- E1, firstn_length. lia.
    + rewrite <- E1. symmetry. apply firstn_skipn.
  - right. split; [|eauto]. intros (bl & _ & E1). eauto.
Qed.
Lemma held_filled bl : held (map Some bl) = bl.
Proof. induction bl as [|b bl IH]; cbn; [reflexivity|]. now rewrite IH. Qed.
Definition record_table room {E} (full : E) (b : MeasurementBlocks) : list (check E) :=
  [or_crash (mbs_len b < 256)] ++ up_to room 5 full ++
  [or_crash (exists bl, cells_filled (mbs_len b) (mbs_blocks b) bl)] ++ up_to room 8 full ++
  blocks_write_table room full (held (firstn (mbs_len b) (mbs_blocks b))) 8.
Lemma V_record room b w : at_w room 4 w ->
  V (record_table room BufferFull b) (mbs_write b w) (fun _ s => at_w room (8 + blocks_size (held (firstn (mbs_len b) (mbs_blocks b)))) s).
Proof.
  intros W. unfold record_table, mbs_write, try_u8. destruct (N.ltb_spec (N.of_nat (mbs_len b)) 256) as [L|L].
  - apply V_hold; [lia|]. eapply V_pass; [reflexivity|]. wstep. eapply V_at; [eassumption|reflexivity|].
    destruct (@size_cases BufferFullError b) as [(bl & post & size & E1 & E2 & E3)|[H (p & E3)]].
    + apply V_hold.
      { exists bl. unfold cells_filled. rewrite E2, <- E1, app_length, map_length, firstn_app_exact by (now rewrite map_length). split; [lia|reflexivity]. }
      eapply V_pass; [exact E3|]. wstep. eapply V_at; [eassumption|reflexivity|].
      rewrite E2, <- E1, firstn_app_exact by (now rewrite map_length). rewrite held_filled.
      eapply V_last; [apply (V_blocks room post bl []); eassumption|]. intros a9 s9 W9. cbv beta in W9. unfold w_offset, gets. apply V_nil. exact W9.
    + eapply V_stop; [exact E3|exact H].
  - eapply V_stop; [reflexivity|lia].
Qed.
Theorem C74_measurements m :
  writer_reports (write_measurements m) (fun room => measurements_write_table room m) (measurements_size m).
Proof.
  apply writer_intro. intros room w W. unfold measurements_write_table, measurements_write_body. cbv zeta. wstep. wstep. wstep.
  eapply V_at; [eassumption|reflexivity|].
  assert (R : forall w k cs Q, at_w room 4 w -> (forall a s, at_w room (8 + blocks_size (held (firstn (mbs_len (m_blocks m)) (mbs_blocks (m_blocks m))))) s -> V cs (k a s) Q) ->
    V (record_table room WMBufferFull (m_blocks m) ++ cs) (bind (map_err wm_from (mbs_write (m_blocks m))) k w) (Q : nat -> Writer -> Prop)).
  { intros w9 k cs Q W9 K. eapply V_bind; [|exact K]. eapply V_rows; [|apply V_under, V_record; exact W9].
    change WMBufferFull with (wm_from BufferFull). apply as_much_crash, as_much_full, as_much_crash, as_much_full, as_much_blocks. }
  assert (RT : forall rest, [or_crash (mbs_len (m_blocks m) < 256)] ++ up_to room 5 WMBufferFull ++
    [or_crash (exists bl, cells_filled (mbs_len (m_blocks m)) (mbs_blocks (m_blocks m)) bl)] ++ up_to room 8 WMBufferFull ++
    blocks_write_table room WMBufferFull (held (firstn (mbs_len (m_blocks m)) (mbs_blocks (m_blocks m)))) 8 ++ rest =
    record_table room WMBufferFull (m_blocks m) ++ rest) by (intros; unfold record_table; rewrite <- !app_assoc; reflexivity).
  rewrite RT. eapply R; [eassumption|]. clear RT R. unfold measurements_size. set (blocks := blocks_size _). intros a9 s9 W9.
  wstep. eapply V_at; [eassumption|lia|]. rewrite counted_of. unfold try_u16.
  destruct (N.ltb_spec (N.of_nat (counted_sizes (m_opaque_data m))) 65536) as [L|L]; [|eapply V_stop; [reflexivity|lia]].
  apply V_hold; [exact L|]. eapply V_pass; [reflexivity|]. wstep. eapply V_at; [eassumption|lia|].
  eapply V_under'; [apply V_opaque; match goal with H : at_w room _ ?s |- at_w room _ ?s => eapply at_eq; [exact H|lia] end|].
  intros a10 s10 W10. cbv beta in W10. destruct (m_signature m) as [sg|]; cbn [optional_size].
  - eapply V_last with (Q1 := fun _ s => at_w room (8 + blocks + length (m_nonce m) + 2 + written_sizes (m_opaque_data m) + length sg) s).
    + wstep. rewrite <- (app_nil_r (up_to _ _ _)). eapply V_at; [eassumption|lia|]. apply V_nil.
      match goal with H : at_w room _ ?s |- at_w room _ ?s => eapply at_eq; [exact H|lia] end.
    + intros a11 s11 W11. eapply V_offset; [exact W11|reflexivity|lia].
  - eapply V_step; [reflexivity|]. eapply V_offset_up; [exact W10|lia].
Qed.

(** * Where the buffer ends decides the error of a valid CHALLENGE_AUTH. *)
Lemma ff_through {E} (cs1 cs2 : list (check E)) v : Forall fst cs1 -> first_failing cs2 v -> first_failing (cs1 ++ cs2) v.
Proof. intros F H. induction F as [|[P w] l HP _ IH]; [exact H|now apply holds_here]. Qed.
Lemma ff_within {E} (cs1 cs2 : list (check E)) v : first_failing cs1 v -> v <> Answer -> first_failing (cs1 ++ cs2) v.
Proof. induction 1 as [|P w l H|P w l w' H H1 IH]; intros N; cbn [app]; [tauto|now apply fails_here|apply holds_here; auto]. Qed.
Lemma ff_under {E F} (f : E -> F) cs v : first_failing cs v -> first_failing (under f cs) (wrap_verdict f v).
Proof. induction 1; cbn; constructor; auto. Qed.
Lemma all_under {E F} (f : E -> F) cs : Forall fst cs -> Forall fst (under f cs).
Proof. induction 1; constructor; auto. Qed.
Lemma elements_fit room : forall d k, Forall vendor_matches d -> k <= room ->
  (k + fold_right (fun e n => written_size e + n) 0 d <= room -> Forall fst (elements_write_table room d k)) /\
  (room < k + fold_right (fun e n => written_size e + n) 0 d -> first_failing (elements_write_table room d k) (Refuse (is WOEBufferFull))).
Proof.
  induction d as [|e d IH]; intros k HV L; cbn [elements_write_table fold_right]; [split; [constructor|lia]|].
  inversion HV as [|? ? V1 V2]; subst.
  assert (LB : 2 + length (vendor_id_bytes (oe_vendor e)) <= written_size e) by (unfold written_size, padded; lia).
  split; intros H.
  - destruct (IH (k + written_size e) V2 ltac:(lia)) as [I1 _]. specialize (I1 ltac:(lia)).
    constructor; [unfold or_else; cbn [fst]; lia|]. constructor; [exact V1|]. constructor; [unfold or_else; cbn [fst]; lia|exact I1].
  - cbn [app]. destruct (Nat.le_gt_cases (k + 2 + length (vendor_id_bytes (oe_vendor e))) room) as [L1|L1]; [|apply fails_here; lia].
    apply holds_here; [exact L1|]. apply holds_here; [exact V1|].
    destruct (Nat.le_gt_cases (k + written_size e) room) as [L2|L2]; [|apply fails_here; lia].
    apply holds_here; [exact L2|]. apply IH; [exact V2|lia|lia].
Qed.
Theorem C74_challenge_auth_room m buf :
  N.to_nat (ca_slot m) < NUM_SLOTS -> Forall vendor_matches (ca_opaque_data m) -> counted_sizes (ca_opaque_data m) <= 1024 ->
  let k := 6 + length (ca_cert_chain_hash m) + length (ca_nonce m) + length (ca_measurement_summary_hash m) in
  let o := written_sizes (ca_opaque_data m) in
  fst (write_challenge_auth m buf) =
    if length buf <? k then Err WCABufferFull
    else if length buf <? k + o then Err (WCAWriteOpaqueElement WOEBufferFull)
    else if length buf <? k + o + length (ca_signature m) then Err WCABufferFull
    else Ok (k + o + length (ca_signature m)).
Proof.
  intros H1 H2 H3 k o. destruct (C74_challenge_auth m buf) as [_ T]. cbv beta in T.
  assert (G : forall e, first_failing (challenge_auth_write_table (length buf) m) (Refuse (is e)) -> fst (write_challenge_auth m buf) = Err e).
  { intros e F. destruct (T _ F) as [E1 _]. destruct (fst (write_challenge_auth m buf)); cbn [ended] in E1; try contradiction. unfold is in E1. now subst. }
  assert (G2 : forall e, first_failing (challenge_auth_write_table (length buf) m) (Refuse (fun x => exists y, x = WCAWriteOpaqueElement y /\ is e y)) ->
    fst (write_challenge_auth m buf) = Err (WCAWriteOpaqueElement e)).
  { intros e F. destruct (T _ F) as [E1 _]. destruct (fst (write_challenge_auth m buf)); cbn [ended] in E1; try contradiction. destruct E1 as (y & -> & E2). unfold is in E2. now subst. }
  unfold challenge_auth_write_table in G, G2, T. cbv zeta in *. fold k in G, G2, T. cbn [up_to app] in *.
  destruct (Nat.ltb_spec (length buf) k) as [L1|L1].
  { apply G. destruct (Nat.le_gt_cases 2 (length buf)); [|apply fails_here; lia]. apply holds_here; [assumption|].
    apply holds_here; [assumption|]. apply holds_here; [assumption|]. apply fails_here. lia. }
  assert (A2 : 2 <= length buf) by (unfold k in L1; lia).
  unfold o, written_sizes in *. set (els := fold_right (fun e n => written_size e + n) 0 (ca_opaque_data m)) in *.
  assert (OT : (k + (4 + els) <= length buf -> Forall fst (opaque_write_table (length buf) (ca_opaque_data m) k)) /\
    (length buf < k + (4 + els) -> first_failing (opaque_write_table (length buf) (ca_opaque_data m) k) (Refuse (is WOEBufferFull)))).
  { unfold opaque_write_table. destruct (Nat.le_gt_cases (k + 4) (length buf)) as [L2|L2].
    - destruct (elements_fit (length buf) (ca_opaque_data m) (k + 4) H2 L2) as [F1 F2]. fold els in F1, F2. split; intros H.
      + constructor; [exact L2|]. apply F1. lia.
      + apply holds_here; [exact L2|]. apply F2. lia.
    - split; intros H; [lia|]. apply fails_here. lia. }
  destruct OT as [OT1 OT2].
  assert (S1 : forall v rest, first_failing rest v ->
    first_failing (or_else (2 <= length buf) WCABufferFull :: or_else (N.to_nat (ca_slot m) < NUM_SLOTS) WCAMaxSlotNumberExceeded ::
      or_else (counted_sizes (ca_opaque_data m) <= 1024) WCAMaxOpaqueDataSizeExceeded :: or_else (k <= length buf) WCABufferFull :: rest) v).
  { intros v rest H. do 4 (apply holds_here; [assumption|]). exact H. }
  destruct (Nat.ltb_spec (length buf) (k + (4 + els))) as [L2|L2].
  { apply G2, S1. apply ff_within; [|discriminate]. change (Refuse _) with (wrap_verdict WCAWriteOpaqueElement (Refuse (is WOEBufferFull))).
    apply ff_under. auto. }
  assert (S2 : forall v rest, first_failing rest v ->
    first_failing (under WCAWriteOpaqueElement (opaque_write_table (length buf) (ca_opaque_data m) k) ++ rest) v)
    by (intros; apply ff_through; [apply all_under; auto|assumption]).
  destruct (Nat.ltb_spec (length buf) (k + (4 + els) + length (ca_signature m))) as [L3|L3].
  - apply G, S1, S2. apply fails_here. lia.
  - destruct (T Answer) as [_ E1]; [apply S1, S2, holds_here; [lia|constructor]|].
    rewrite E1 by reflexivity. unfold challenge_auth_size, written_sizes. fold els. f_equal; unfold k; lia.
Qed.
End Write.

Section Examples.
#[local] Instance wex_cfg : Config := sample_cfg.
(** The opaque data of this CHALLENGE_AUTH fills bytes 46 to 69 of 78. *)
Example C74_example_challenge_auth : let m := sample_ca false in
  N.to_nat (ca_slot m) < NUM_SLOTS /\ Forall vendor_matches (ca_opaque_data m) /\ counted_sizes (ca_opaque_data m) <= 1024 /\
  map (fun n => fst (write_challenge_auth m (repeat 0%N n))) [1; 45; 46; 69; 70; 77; 78] =
  [Err WCABufferFull; Err WCABufferFull; Err (WCAWriteOpaqueElement WOEBufferFull); Err (WCAWriteOpaqueElement WOEBufferFull);
   Err WCABufferFull; Err WCABufferFull; Ok 78].
Proof.
  cbv zeta. split; [apply Nat.ltb_lt; reflexivity|]. split; [repeat (apply Forall_cons; [reflexivity|]); constructor|].
  split; [apply Nat.leb_le; vm_compute; reflexivity|]. vm_compute. reflexivity.
Qed.
(** No room for the header is reported before an invalid slot, and the slot
    before opaque data that does not match its registry. *)
Definition bad_ca (slot : N) : ChallengeAuth :=
  mkChallengeAuth slot 8 false (repeat 1%N 4) sample_nonce (repeat 2%N 4) [mkOE Dmtf (VU16 7) [9]%N] (repeat 3%N 8).
Example C74_example_order :
  fst (write_challenge_auth (bad_ca 9) (repeat 0%N 1)) = Err WCABufferFull /\
  fst (write_challenge_auth (bad_ca 9) (repeat 0%N 100)) = Err WCAMaxSlotNumberExceeded /\
  fst (write_challenge_auth (bad_ca 3) (repeat 0%N 100)) = Err (WCAWriteOpaqueElement WOEInvalidVendorId) /\
  fst (write_challenge_auth (bad_ca 3) (repeat 0%N 53)) = Err (WCAWriteOpaqueElement WOEBufferFull).
Proof. repeat split; vm_compute; reflexivity. Qed.
Example C74_example_table :
  first_failing (challenge_auth_write_table 100 (bad_ca 9)) (Refuse (is WCAMaxSlotNumberExceeded)).
Proof. cbn [challenge_auth_write_table up_to app]. apply holds_here; [lia|]. apply fails_here. apply Nat.lt_nge, Nat.ltb_lt. reflexivity. Qed.
Example C74_example_get_measurements :
  map (fun n => fst (write_get_measurements (mkGM (mkRA true false) (Reserved 7) None 0) (repeat 0%N n))) [2; 3] =
  [Err WGMBufferFull; Err (WGMMeasurementIndex InvalidReservedIndex)] /\
  fst (write_get_measurements (mkGM (mkRA true false) AllMeasurements None 0) (repeat 0%N 4)) = Panic PUnwrap.
Proof. split; reflexivity. Qed.
Example C74_example_measurements :
  map (fun n => fst (write_measurements (mkMeasurements 0 CCTrue 2 (mkMBs 1 (None :: repeat None 7)) sample_nonce sample_opaque None) (repeat 0%N n))) [4; 5; 7] =
  [Err WMBufferFull; Panic PUnwrap; Panic PUnwrap] /\
  map (fun n => fst (write_measurements (mkMeasurements 0 CCTrue 2 (mkMBs 0 (repeat None 8)) sample_nonce sample_opaque None) (repeat 0%N n))) [7; 41; 42; 66] =
  [Err WMBufferFull; Err WMBufferFull; Err (WMWriteOpaqueElement WOEBufferFull); Ok 66].
Proof. split; vm_compute; reflexivity. Qed.
End Examples.
Print Assumptions C74_challenge_auth.
Print Assumptions C74_challenge_auth_room.
Print Assumptions C74_measurements.
Print Assumptions C74_digests.
