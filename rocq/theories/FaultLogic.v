(** Running a parser against a table of checks over byte positions (SpecFaults). *)
From Verif Require Import Base BaseLemmas Config Encoding MsgCommon MsgChallenge ReaderLogic ReaderBits SpecWire SpecChecks SpecFaults FlagLemmas.

Section V.
Context {E : Type}.
(** The outcome [o] is the one the table says; when all rows hold, [Q] holds of it. *)
Definition V {S A} (cs : list (check E)) (o : res E A * S) (Q : A -> S -> Prop) : Prop :=
  (Forall fst cs /\ exists a s, o = (Ok a, s) /\ Q a s) \/
  (exists pre P v post, cs = pre ++ (P, v) :: post /\ Forall fst pre /\ ~ P /\ v <> Answer /\ ended v (fst o)).
Lemma V_nil {S A} (a : A) (s : S) (Q : A -> S -> Prop) : Q a s -> V [] (Ok a, s) Q.
Proof. intros H. left. split; [constructor|]. eauto. Qed.
Lemma V_hold {S A} (P : Prop) v cs (o : res E A * S) Q : P -> V cs o Q -> V ((P, v) :: cs) o Q.
Proof.
  intros HP [[F H]|(pre & P' & v' & post & -> & F & N & A1 & M)].
  - left. split; [now constructor|auto].
  - right. exists ((P, v) :: pre), P', v', post. repeat split; auto.
Qed.
Lemma V_fail {S A} (P : Prop) v cs (o : res E A * S) Q : ~ P -> v <> Answer -> ended v (fst o) -> V ((P, v) :: cs) o Q.
Proof. intros. right. exists [], P, v, cs. repeat split; auto. Qed.
Lemma V_refuse {S A} (P : Prop) (e : E) cs (s : S) (Q : A -> S -> Prop) : ~ P -> V (or_else P e :: cs) (Err e, s) Q.
Proof. intros. apply V_fail; [auto|discriminate|reflexivity]. Qed.
Lemma V_crash {S A} (P : Prop) p cs (s : S) (Q : A -> S -> Prop) : ~ P -> V (or_crash P :: cs) (Panic p, s) Q.
Proof. intros. apply V_fail; [auto|discriminate|reflexivity]. Qed.
Lemma V_post {S A} cs (o : res E A * S) (Q Q' : A -> S -> Prop) : V cs o Q -> (forall a s, Q a s -> Q' a s) -> V cs o Q'.
Proof. intros [[F (a & s & E1 & H)]|H] I; [left; eauto 8|right; auto]. Qed.
Lemma V_bind {S A B} cs1 cs2 (m : M S E A) (k : A -> M S E B) c Q1 Q2 :
  V cs1 (m c) Q1 -> (forall a s, Q1 a s -> V cs2 (k a s) Q2) -> V (cs1 ++ cs2) (bind m k c) Q2.
Proof.
  intros [[F (a & s & E1 & H)]|(pre & P & v & post & -> & F & N & A1 & M1)] K; unfold bind.
  - rewrite E1. specialize (K a s H). clear H E1. induction F as [|[P v] l HP _ IH]; [exact K|]. now apply V_hold.
  - right. exists pre, P, v, (post ++ cs2). rewrite <- app_assoc. repeat split; auto.
    destruct (m c) as [[a|e|p] s]; cbn [fst ended] in *; destruct v; auto; contradiction.
Qed.
Lemma V_then {S A B} cs1 cs2 (m : M S E A) (k : M S E B) c Q1 Q2 :
  V cs1 (m c) Q1 -> (forall a s, Q1 a s -> V cs2 (k s) Q2) -> V (cs1 ++ cs2) ((m ;;; k) c) Q2.
Proof. intros H K. exact (V_bind cs1 cs2 m (fun _ => k) c Q1 Q2 H K). Qed.
Lemma V_last {S A B} cs (m : M S E A) (k : A -> M S E B) c Q1 Q2 :
  V cs (m c) Q1 -> (forall a s, Q1 a s -> V [] (k a s) Q2) -> V cs (bind m k c) Q2.
Proof. intros H K. rewrite <- (app_nil_r cs). eapply V_bind; eauto. Qed.
(** A step that cannot fail. *)
Lemma V_step {S A B} cs (m : M S E A) (k : A -> M S E B) c a s Q : m c = (Ok a, s) -> V cs (k a s) Q -> V cs (bind m k c) Q.
Proof. intros E1 H. unfold bind. now rewrite E1. Qed.
(** Checks of a value read before. *)
Lemma V_guard {S A} (c : bool) (P : Prop) (e : E) cs (m : M S E A) s Q :
  (c = true -> ~ P) -> (c = false -> P) -> (c = false -> P -> V cs (m s) Q) ->
  V ([or_else P e] ++ cs) ((if c then err e else m) s) Q.
Proof. intros H1 H2 H3. destruct c; [now apply V_refuse, H1|apply V_hold; auto]. Qed.
Lemma V_option {S A B} (o : option A) (P : Prop) (e : E) cs (k : A -> M S E B) s Q :
  (o = None -> ~ P) -> (forall a, o = Some a -> P) -> (forall a, o = Some a -> P -> V cs (k a s) Q) ->
  V ([or_else P e] ++ cs) (bind (lift (of_option e o)) k s) Q.
Proof.
  intros H1 H2 H3. unfold bind, lift, of_option. destruct o as [a|].
  - apply V_hold; eauto.
  - now apply V_refuse, H1.
Qed.
Lemma V_verdict {S A} cs (o : res E A * S) Q : V cs o Q -> exists v, first_failing cs v /\ ended v (fst o).
Proof.
  intros [[F (a & s & -> & _)]|(pre & P & v & post & -> & F & N & _ & M1)].
  - exists Answer. split; [|exact I]. induction F as [|[P v] l HP _ IH]; [constructor|now apply holds_here].
  - exists v. split; [|auto]. induction F as [|[P' v'] l HP _ IH]; [now apply fails_here|now apply holds_here].
Qed.
End V.
Lemma V_under {E F S A} (f : E -> F) cs (m : M S E A) c Q : V cs (m c) Q -> V (under f cs) (map_err f m c) Q.
Proof.
  intros [[H (a & s & E1 & HQ)]|(pre & P & v & post & -> & H & N & A1 & M1)]; unfold map_err.
  - rewrite E1. left. split; [|eauto]. induction H as [|[P v] l HP _ IH]; [constructor|constructor; auto].
  - right. exists (under f pre), P, (wrap_verdict f v), (under f post). unfold under. rewrite map_app. cbn [map fst snd]. repeat split; auto.
    + induction H as [|[P' v'] l HP _ IH]; [constructor|constructor; auto].
    + destruct v; simpl; congruence.
    + destruct (m c) as [[a|e|p] s]; cbn [fst ended] in *; destruct v; simpl; auto. eauto.
Qed.
Lemma V_plain {E S A} cs (m : M S E A) c Q : V cs (map_err (fun e => e) m c) Q -> V cs (m c) Q.
Proof.
  intros H. replace (m c) with (map_err (fun e => e) m c); [exact H|]. unfold map_err. now destruct (m c) as [[a|e|p] s].
Qed.

(** * The readers *)
Section Readers.
Context {cfg : Config}.
Variable buf : list N.
Hypothesis Hb : bytes buf.
Notation at_ k := (mkReader buf k 0).
(** The reader has got to [k]. *)
Definition to (k : nat) {A} (a : A) : A -> Reader -> Prop := fun x s => x = a /\ s = mkReader buf k 0 /\ k <= length buf.

Lemma nth_at k : k < length buf -> nth_error buf k = Some (byte_at buf k).
Proof. intros H. unfold byte_at. now apply nth_error_nth'. Qed.
Lemma byte_ok k : is_byte (byte_at buf k).
Proof.
  unfold byte_at. destruct (Nat.lt_ge_cases k (length buf)) as [L|L].
  - eapply bytes_nth; [exact Hb|]. now apply nth_at.
  - rewrite nth_overflow by auto. unfold is_byte. lia.
Qed.
Lemma split_at_pos k n : k + n <= length buf -> exists pre bs rest, buf = pre ++ bs ++ rest /\ length pre = k /\ length bs = n.
Proof.
  intros H. exists (firstn k buf), (firstn n (skipn k buf)), (skipn n (skipn k buf)).
  rewrite !firstn_skipn. repeat split; rewrite firstn_length; rewrite ?skipn_length; lia.
Qed.
Lemma slice_1 k : k + 1 <= length buf -> slice buf k (k + 1) = [byte_at buf k].
Proof.
  intros H. destruct (split_at_pos k 1 H) as (pre & bs & rest & -> & <- & L). destruct bs as [|b [|]]; try discriminate.
  rewrite slice_mid by auto. unfold byte_at. rewrite app_nth2, Nat.sub_diag by lia. reflexivity.
Qed.
Lemma nth_mid (pre l : list N) i : nth (length pre + i) (pre ++ l) 0%N = nth i l 0%N.
Proof. rewrite app_nth2 by lia. f_equal. lia. Qed.
Lemma nth_mid0 (pre l : list N) : nth (length pre) (pre ++ l) 0%N = nth 0 l 0%N.
Proof. rewrite <- (nth_mid pre l 0). f_equal. lia. Qed.
Lemma slice_2 k : k + 2 <= length buf -> slice buf k (k + 2) = [byte_at buf k; byte_at buf (k + 1)].
Proof.
  intros H. destruct (split_at_pos k 2 H) as (pre & bs & rest & -> & <- & L). destruct bs as [|b [|b' [|]]]; try discriminate.
  rewrite slice_mid by auto. unfold byte_at. rewrite !nth_mid, nth_mid0. reflexivity.
Qed.
Lemma slice_4 k : k + 4 <= length buf -> slice buf k (k + 4) = [byte_at buf k; byte_at buf (k + 1); byte_at buf (k + 2); byte_at buf (k + 3)].
Proof.
  intros H. destruct (split_at_pos k 4 H) as (pre & bs & rest & -> & <- & L). destruct bs as [|b [|b' [|b2 [|b3 [|]]]]]; try discriminate.
  rewrite slice_mid by auto. unfold byte_at. rewrite !nth_mid, nth_mid0. reflexivity.
Qed.

Context {E : Type}.
Variable f : ReadError -> E.
Lemma V_byte k : k <= length buf -> V (has buf f k 1) (map_err f get_byte (at_ k)) (to (k + 1) (byte_at buf k)).
Proof.
  intros H. unfold map_err, get_byte, r_is_aligned, r_is_empty, r_index, r_adv. cbn [r_bit r_byte r_buf Nat.eqb negb].
  destruct (Nat.eqb_spec (length buf) k) as [e|e].
  - apply V_refuse. lia.
  - rewrite nth_at by lia. apply V_hold; [lia|]. apply V_nil. unfold to. repeat split. lia.
Qed.
Lemma V_u16 k : k <= length buf -> V (has buf f k 2) (map_err f get_u16 (at_ k)) (to (k + 2) (u16_at buf k)).
Proof.
  intros H. unfold map_err, get_u16, r_is_aligned, r_remaining, r_slice, r_adv. cbn [r_bit r_byte r_buf Nat.eqb negb].
  destruct (Nat.ltb_spec (length buf - k) 2) as [e|e].
  - apply V_refuse. lia.
  - rewrite (proj2 (Nat.leb_le _ _)) by lia. rewrite slice_2 by lia. apply V_hold; [lia|]. apply V_nil. unfold to, u16_at. cbn [le_val]. repeat split; lia.
Qed.
Lemma V_u32 k : k <= length buf -> V (has buf f k 4) (map_err f get_u32 (at_ k)) (to (k + 4) (u32_at buf k)).
Proof.
  intros H. unfold map_err, get_u32, r_is_aligned, r_remaining, r_slice, r_adv. cbn [r_bit r_byte r_buf Nat.eqb negb].
  destruct (Nat.ltb_spec (length buf - k) 4) as [e|e].
  - apply V_refuse. lia.
  - rewrite (proj2 (Nat.leb_le _ _)) by lia. rewrite slice_4 by lia. apply V_hold; [lia|]. apply V_nil. unfold to, u32_at. cbn [le_val]. repeat split; lia.
Qed.
Lemma V_slice k n dest : k <= length buf -> n <= dest ->
  V (has buf f k n) (map_err f (get_slice n dest) (at_ k)) (to (k + n) (slice buf k (k + n))).
Proof.
  intros H D. unfold map_err, get_slice, r_is_aligned, r_remaining, r_slice, r_adv. cbn [r_bit r_byte r_buf Nat.eqb negb].
  destruct (Nat.ltb_spec (length buf - k) n) as [e|e].
  - apply V_refuse. lia.
  - rewrite (proj2 (Nat.ltb_ge _ _)) by lia. rewrite (proj2 (Nat.leb_le _ _)) by lia. apply V_hold; [lia|]. apply V_nil. unfold to. repeat split. lia.
Qed.
(** The storage may be too small. *)
Lemma V_slice_crash k n dest : k <= length buf ->
  V (has buf f k n ++ [or_crash (n <= dest)]) (map_err f (get_slice n dest) (at_ k)) (to (k + n) (slice buf k (k + n))).
Proof.
  intros H. unfold map_err, get_slice, r_is_aligned, r_remaining, r_slice, r_adv. cbn [r_bit r_byte r_buf Nat.eqb negb].
  destruct (Nat.ltb_spec (length buf - k) n) as [e|e].
  - apply V_refuse. lia.
  - apply V_hold; [lia|]. destruct (Nat.ltb_spec dest n).
    + apply V_crash. lia.
    + rewrite (proj2 (Nat.leb_le _ _)) by lia. apply V_hold; [lia|]. apply V_nil. unfold to. repeat split. lia.
Qed.
(** Splitting a row into two: what is missing of [n + m] bytes is missing of one part. *)
Lemma V_has_split {A} k n m cs (o : res E A * Reader) Q :
  V (has buf f k n ++ has buf f (k + n) m ++ cs) o Q -> V (has buf f k (n + m) ++ cs) o Q.
Proof.
  intros [[F H]|(pre & P & v & post & E1 & F & N & A1 & M1)].
  - inversion F as [|? ? F1 F']; subst. inversion F' as [|? ? F2 F3]; subst. simpl in F1, F2. left. split; [|auto]. constructor; [simpl; lia|auto].
  - cbn [has app] in E1. destruct pre as [|x pre].
    + injection E1 as <- <- <-. apply V_fail; [lia|auto|auto].
    + injection E1 as <- E1. inversion F as [|? ? F1 F']; subst. simpl in F1. destruct pre as [|y pre].
      * injection E1 as <- <- <-. apply V_fail; [lia|auto|auto].
      * injection E1 as <- ->. inversion F' as [|? ? F2 F3]; subst. simpl in F2. apply V_hold; [lia|]. right. exists pre, P, v, post. auto.
Qed.
Lemma V_has_split' {A} k n m (o : res E A * Reader) Q :
  V (has buf f k n ++ has buf f (k + n) m) o Q -> V (has buf f k (n + m)) o Q.
Proof. intros H. rewrite <- (app_nil_r (has _ _ _ (n + m))). apply V_has_split. now rewrite app_nil_r. Qed.
Lemma V_has_0 {A} k cs (o : res E A * Reader) Q : k <= length buf -> V cs o Q -> V (has buf f k 0 ++ cs) o Q.
Proof. intros H K. apply V_hold; [lia|auto]. Qed.

Lemma V_ignored n : forall k, k <= length buf -> V (has buf f k n) (map_err f (skip_ignored n) (at_ k)) (to (k + n) tt).
Proof.
  induction n as [|n IH]; intros k H.
  - apply V_hold; [lia|]. apply V_nil. unfold to. rewrite Nat.add_0_r. auto.
  - change (S n) with (1 + n). apply V_has_split'.
    change (map_err f (skip_ignored (1 + n)) (at_ k)) with (map_err f ((get_byte ;;; ret tt) ;;; skip_ignored n) (at_ k)).
    destruct (V_byte k H) as [[F (a & s & E1 & -> & -> & L)]|(pre & P & v & post & E1 & F & N & A1 & M1)].
    + unfold map_err in E1. destruct (get_byte (at_ k)) as [[x|x|x] s'] eqn:G; try discriminate. injection E1 as -> ->.
      inversion F as [|? ? F1 F']; subst. apply V_hold; [exact F1|]. specialize (IH (k + 1) L).
      unfold map_err, bind in *. rewrite G. cbn [ret]. unfold ret. cbv iota beta. replace (k + (1 + n)) with (k + 1 + n) by lia. exact IH.
    + assert (P = (k + 1 <= length buf) /\ pre = []) as [-> ->].
      { destruct pre as [|? [|]]; cbn in E1; [|discriminate|discriminate]. injection E1 as <- _ _. auto. }
      injection E1 as <- <-. unfold map_err, bind in *. destruct (get_byte (at_ k)) as [[x|x|x] s'] eqn:G; cbn [fst ended] in M1; try contradiction.
      apply V_fail; auto.
Qed.
Lemma rsvd_S k n : rsvd buf f k (S n) = has buf f k 1 ++ [or_else (byte_at buf k = 0%N) (f ReservedByteNotZero)] ++ rsvd buf f (k + 1) n.
Proof. unfold rsvd. cbn [seq flat_map]. rewrite <- app_assoc. now rewrite Nat.add_1_r. Qed.
Lemma V_reserved n : forall k, k <= length buf -> V (rsvd buf f k n) (map_err f (skip_reserved n) (at_ k)) (to (k + n) tt).
Proof.
  induction n as [|n IH]; intros k H.
  - apply V_nil. unfold to. rewrite Nat.add_0_r. auto.
  - rewrite rsvd_S.
    change (map_err f (skip_reserved (S n)) (at_ k)) with
      (map_err f ((b <- get_byte ;; if negb (b =? 0)%N then err ReservedByteNotZero else ret tt) ;;; skip_reserved n) (at_ k)).
    destruct (V_byte k H) as [[F (a & s & E1 & -> & -> & L)]|(pre & P & v & post & E1 & F & N & A1 & M1)].
    + unfold map_err in E1. destruct (get_byte (at_ k)) as [[x|x|x] s'] eqn:G; try discriminate. injection E1 as -> ->.
      inversion F as [|? ? F1 F']; subst. apply V_hold; [exact F1|]. specialize (IH (k + 1) L).
      unfold map_err, bind in *. rewrite G. destruct (N.eqb_spec (byte_at buf k) 0) as [Z|Z]; cbn [negb].
      * apply V_hold; [exact Z|]. unfold ret. cbv iota beta. replace (k + S n) with (k + 1 + n) by lia. exact IH.
      * unfold err. apply V_refuse. exact Z.
    + assert (P = (k + 1 <= length buf) /\ pre = []) as [-> ->].
      { destruct pre as [|? [|]]; cbn in E1; [|discriminate|discriminate]. injection E1 as <- _ _. auto. }
      injection E1 as <- <-. unfold map_err, bind in *. destruct (get_byte (at_ k)) as [[x|x|x] s'] eqn:G; cbn [fst ended] in M1; try contradiction.
      apply V_fail; auto.
Qed.
(** Bits: only the first field of a byte can find it missing. *)
Lemma bits_inside k j n : k < length buf -> j < 8 -> 1 <= n <= 7 -> j + n <= 8 ->
  get_bits n (mkReader buf k j) = (Ok (field (byte_at buf k) j n), if j + n <? 8 then mkReader buf k (j + n) else at_ (k + 1)).
Proof.
  intros H Hj Hn Hjn. destruct (split_at_pos k 1) as (pre & bs & rest & E1 & E2 & E3); [lia|]. destruct bs as [|b [|]]; try discriminate.
  simpl app in E1. assert (B : byte_at buf k = b) by (unfold byte_at; rewrite E1, <- E2, app_nth2, Nat.sub_diag by lia; reflexivity).
  pose proof Hb as Hb'. rewrite E1 in Hb'. apply bytes_app in Hb' as [_ Hb'].
  pose proof (get_bits_rd pre b rest j n Hb' Hj Hn Hjn) as G. unfold rd in G. rewrite <- E1, E2 in G. rewrite G, B.
  rewrite app_length, <- app_assoc. simpl app. rewrite <- E1, E2. reflexivity.
Qed.
Lemma V_bits k n : k <= length buf -> 1 <= n <= 7 ->
  V (has buf f k 1) (map_err f (get_bits n) (at_ k)) (fun x s => x = field (byte_at buf k) 0 n /\ s = mkReader buf k n /\ k < length buf).
Proof.
  intros H Hn. destruct (Nat.eq_dec k (length buf)) as [->|].
  - unfold map_err, get_bits, r_is_empty. cbn [r_buf r_byte]. rewrite Nat.eqb_refl. apply V_refuse. lia.
  - unfold map_err. rewrite (bits_inside k 0 n) by lia. simpl Nat.add. rewrite (proj2 (Nat.ltb_lt _ _)) by lia. apply V_hold; [lia|]. apply V_nil. repeat split. lia.
Qed.
Lemma map_bits k j n : k < length buf -> j < 8 -> 1 <= n <= 7 -> j + n <= 8 ->
  map_err f (get_bits n) (mkReader buf k j) = (Ok (field (byte_at buf k) j n), if j + n <? 8 then mkReader buf k (j + n) else at_ (k + 1)).
Proof. intros. unfold map_err. now rewrite bits_inside. Qed.
Lemma V_u24 k : k <= length buf -> V (has buf f k 3) (map_err f get_u24 (at_ k)) (to (k + 3) (u24_at buf k)).
Proof.
  intros H. unfold map_err, get_u24, get_byte, r_is_aligned, r_is_empty, r_index, r_adv, bind. cbn [r_bit r_byte r_buf Nat.eqb negb].
  destruct (Nat.eqb_spec (length buf) k); [apply V_refuse; lia|]. rewrite nth_at by lia.
  cbn [r_bit r_byte r_buf Nat.eqb negb]. destruct (Nat.eqb_spec (length buf) (k + 1)); [apply V_refuse; lia|]. rewrite nth_at by lia.
  cbn [r_bit r_byte r_buf Nat.eqb negb]. destruct (Nat.eqb_spec (length buf) (k + 1 + 1)); [apply V_refuse; lia|]. rewrite nth_at by lia.
  apply V_hold; [lia|]. apply V_nil. unfold to. rewrite u24_val by apply byte_ok. unfold u24_at. cbn [le_val].
  replace (k + 1 + 1) with (k + 2) by lia. repeat split; [lia|f_equal; lia|lia].
Qed.
Lemma V_nonce k : k <= length buf -> V (has buf f k nonce_len) (map_err f nonce_read (at_ k)) (fun _ s => s = at_ (k + nonce_len) /\ k + nonce_len <= length buf).
Proof.
  intros H. unfold nonce_len, nonce_read. destruct feature_rand.
  - eapply V_post; [apply V_slice; auto|]. intros a s (_ & -> & L). auto.
  - apply V_hold; [lia|]. apply V_nil. rewrite Nat.add_0_r. auto.
Qed.
End Readers.
