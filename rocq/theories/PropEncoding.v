(** C01-C05: the Writer and the Reader. *)
From Verif Require Import Base BaseLemmas Config Encoding MsgCommon WriterLogic ReaderLogic ReaderBits ReaderLoops SpecWire.

(** * C01 *)
(** The Writer's append operations and the bytes each is documented to append. *)
Inductive wop :=
| OpPut (b : N) | OpPutReserved (n : nat) | OpPutU16 (v : N) | OpPutU24 (v : N) | OpPutU32 (v : N)
| OpExtend (bs : list N).
Definition wop_bytes (op : wop) : list N :=
  match op with
  | OpPut b => [b] | OpPutReserved n => zeros n | OpPutU16 v => u16le v | OpPutU24 v => u24le v
  | OpPutU32 v => u32le v | OpExtend bs => bs
  end.
Definition wop_call (op : wop) : M Writer BufferFullError nat :=
  match op with
  | OpPut b => put b | OpPutReserved n => put_reserved n | OpPutU16 v => put_u16 v | OpPutU24 v => put_u24 v
  | OpPutU32 v => put_u32 v | OpExtend bs => w_extend bs
  end.
(** Calls made one after the other, whether or not earlier ones failed. *)
Fixpoint wop_run (ops : list wop) (w : Writer) : list (res BufferFullError nat) * Writer :=
  match ops with
  | [] => ([], w)
  | op :: r => let '(a, w1) := wop_call op w in
               let '(l, w2) := wop_run r w1 in (a :: l, w2)
  end.
(** [chunks] are the bytes appended by each call: all the bytes of the call if
    they fit (the call returns the new offset), otherwise a proper prefix of
    them (the call returns BufferFull). *)
Fixpoint wop_trace (cap off : nat) (ops : list wop) (results : list (res BufferFullError nat))
         (chunks : list (list N)) : Prop :=
  match ops, results, chunks with
  | [], [], [] => True
  | op :: ops', r :: results', c :: chunks' =>
    (off + length (wop_bytes op) <= cap /\ r = Ok (off + length (wop_bytes op)) /\ c = wop_bytes op \/
     cap < off + length (wop_bytes op) /\ r = Err BufferFull /\
     exists k, k < length (wop_bytes op) /\ c = firstn k (wop_bytes op)) /\
    wop_trace cap (off + length c) ops' results' chunks'
  | _, _, _ => False
  end.

Section Props.
Context {cfg : Config}.

Lemma wop_emits op o : emits o (wop_call op) BufferFull (wop_bytes op) (o + length (wop_bytes op)).
Proof.
  destruct op; cbn [wop_call wop_bytes].
  - eapply emits_eq; [apply emits_put|reflexivity|simpl; lia].
  - eapply emits_eq; [apply emits_put_reserved|reflexivity|]. unfold zeros. now rewrite repeat_length.
  - apply emits_put_u16.
  - apply emits_put_u24.
  - apply emits_put_u32.
  - apply emits_extend.
Qed.

Theorem C01_writer_appends ops : forall w, w_off w <= length (w_buf w) ->
  exists chunks,
    let '(results, w') := wop_run ops w in
    wop_trace (length (w_buf w)) (w_off w) ops results chunks /\
    w_off w' = w_off w + length (concat chunks) /\ w_off w' <= length (w_buf w') /\
    w_buf w' = firstn (w_off w) (w_buf w) ++ concat chunks ++ skipn (w_off w') (w_buf w) /\
    length (w_buf w') = length (w_buf w).
Proof.
  induction ops as [|op ops IH]; intros w Hw.
  - exists []. simpl. rewrite Nat.add_0_r, firstn_skipn. auto.
  - destruct (wop_emits op (w_off w) w Hw eq_refl) as [Ha Hb]. cbn [wop_run].
    assert (S : exists r c, wop_call op w = (r, w_app w c) /\ w_off w + length c <= length (w_buf w) /\
      (w_off w + length (wop_bytes op) <= length (w_buf w) /\ r = Ok (w_off w + length (wop_bytes op)) /\ c = wop_bytes op \/
       length (w_buf w) < w_off w + length (wop_bytes op) /\ r = Err BufferFull /\
       exists k, k < length (wop_bytes op) /\ c = firstn k (wop_bytes op))).
    { destruct (Nat.le_gt_cases (w_off w + length (wop_bytes op)) (length (w_buf w))) as [L|L].
      - rewrite Ha by lia. eexists _, _. split; [reflexivity|]. split; [lia|]. left. auto.
      - destruct (Hb L) as (k & K1 & K2 & ->). eexists _, _. split; [reflexivity|].
        split; [rewrite firstn_length; lia|]. right. eauto. }
    destruct S as (r & c & -> & Hc & Hor).
    destruct (IH (w_app w c) (w_app_wf w c Hc)) as (cs & HIH).
    destruct (wop_run ops (w_app w c)) as [results w2]. exists (c :: cs).
    rewrite w_app_len in HIH by auto. change (w_off (w_app w c)) with (w_off w + length c) in HIH.
    destruct HIH as (T & Ho & Hle & Hbuf & Hlen). cbn [concat wop_trace].
    rewrite app_length. repeat split; auto; try lia.
    rewrite Hbuf. unfold w_app at 1 2. cbn [w_buf].
    set (o := w_off w) in *. set (B := w_buf w) in *.
    assert (L1 : length (firstn o B ++ c) = o + length c) by (rewrite app_length, firstn_length; lia).
    rewrite (app_assoc (firstn o B) c (skipn (o + length c) B)).
    rewrite firstn_app_exact by lia. rewrite skipn_app, L1, skipn_all2 by lia.
    rewrite app_nil_l, skipn_skipn', <- !app_assoc. do 4 f_equal. lia.
Qed.

Example C01_nonvacuous :
  wop_run [OpPut 7; OpPutU16 0x0102; OpPutU32 5; OpExtend [9]]%N (writer_new [1; 1; 1; 1; 1; 1]%N) =
  ([Ok 1; Ok 3; Err BufferFull; Err BufferFull], mkWriter [7; 2; 1; 5; 0; 0]%N 6).
Proof. reflexivity. Qed.

(** * C02 *)
(** The buffer as one LSB-first bit stream, and the number formed by [n] bits at [p]. *)
Definition stream_bit (buf : list N) (i : nat) : N := N.b2n (N.testbit (nth (i / 8) buf 0%N) (N.of_nat (i mod 8))).
Fixpoint stream_val (buf : list N) (p n : nat) : N :=
  match n with O => 0 | S k => stream_bit buf p + 2 * stream_val buf (S p) k end%N.
Definition reader_pos (r : Reader) : nat := 8 * r_byte r + r_bit r.
(** The states a reader can be in (closed under all calls: C05). *)
Definition reader_ok (r : Reader) : Prop :=
  bytes (r_buf r) /\ r_byte r <= length (r_buf r) /\ r_bit r < 8 /\
  (r_bit r <> 0 -> r_byte r < length (r_buf r)).

Lemma stream_bit_le_val buf p : bytes buf -> p < 8 * length buf ->
  stream_bit buf p = N.b2n (N.testbit (le_val buf) (N.of_nat p)).
Proof.
  intros Hb Hp. unfold stream_bit. apply f_equal.
  assert (Hk : p / 8 < length buf) by (apply Nat.div_lt_upper_bound; lia).
  replace (N.of_nat p) with (8 * N.of_nat (p / 8) + N.of_nat (p mod 8))%N
    by (pose proof (Nat.div_mod p 8 ltac:(lia)); lia).
  symmetry. apply testbit_le_val; auto.
  - now apply nth_error_nth'.
  - pose proof (Nat.mod_upper_bound p 8). lia.
Qed.

Lemma div_pow2_succ a p : (a / 2 ^ N.of_nat p)%N = (N.b2n (N.testbit a (N.of_nat p)) + 2 * (a / 2 ^ N.of_nat (S p)))%N.
Proof.
  rewrite Nat2N.inj_succ, N.pow_succ_r'. rewrite (N.mul_comm 2 (2 ^ _)).
  rewrite <- N.div_div by (try apply N.pow_nonzero; lia).
  rewrite N.testbit_spec' at 1.
  rewrite N.add_comm. apply N.div_mod. lia.
Qed.
Lemma mod_pow2_succ a n : (a < 2)%N -> forall b, ((a + 2 * b) mod 2 ^ N.of_nat (S n) = a + 2 * (b mod 2 ^ N.of_nat n))%N.
Proof.
  intros Ha b. rewrite Nat2N.inj_succ, N.pow_succ_r'.
  rewrite N.mod_mul_r by (try apply N.pow_nonzero; lia).
  rewrite (N.mul_comm 2 b), N.mod_add, N.div_add by lia.
  rewrite (N.mod_small a), (N.div_small a) by lia. now rewrite N.add_0_l.
Qed.

Lemma stream_val_bits_at buf n : forall p, bytes buf -> p + n <= 8 * length buf -> stream_val buf p n = bits_at buf p n.
Proof.
  induction n as [|n IH]; intros p Hb Hp; cbn [stream_val].
  - unfold bits_at. change (2 ^ N.of_nat 0)%N with 1%N. now rewrite N.mod_1_r.
  - rewrite IH by (auto; lia). rewrite stream_bit_le_val by (auto; lia).
    unfold bits_at. rewrite (div_pow2_succ (le_val buf) p). rewrite mod_pow2_succ; [reflexivity|].
    destruct (N.testbit _ _); simpl; lia.
Qed.

Theorem C02_get_bits r n : reader_ok r ->
  (1 <= n <= 7 -> reader_pos r + n <= 8 * length (r_buf r) ->
   exists r', get_bits n r = (Ok (stream_val (r_buf r) (reader_pos r) n), r') /\
     r_buf r' = r_buf r /\ reader_pos r' = reader_pos r + n /\ reader_ok r') /\
  (1 <= n <= 7 -> 8 * length (r_buf r) < reader_pos r + n -> get_bits n r = (Err BufferEmpty, r)) /\
  (7 < n -> get_bits n r = (Err (if r_byte r =? length (r_buf r) then BufferEmpty else TooManyBits), r)).
Proof.
  intros (Hb & Hle & H8 & Hne). unfold reader_pos. split; [|split].
  - intros Hn Hp. assert (L : r_byte r < length (r_buf r)) by lia.
    destruct (get_bits_ok r n Hb Hn H8 L) as [G _]. cbv zeta in G. rewrite G by lia.
    eexists. split; [rewrite stream_val_bits_at by auto; reflexivity|]. cbn [r_buf r_byte r_bit].
    set (q := 8 * r_byte r + r_bit r + n) in *.
    pose proof (Nat.div_mod q 8 ltac:(lia)) as D. pose proof (Nat.mod_upper_bound q 8 ltac:(lia)).
    repeat split; auto; cbn [r_buf r_byte r_bit]; try lia.
  - intros Hn Hp. destruct (Nat.eq_dec (r_byte r) (length (r_buf r))) as [E|E].
    + unfold get_bits, r_is_empty. rewrite E, Nat.eqb_refl. reflexivity.
    + destruct (get_bits_ok r n Hb Hn H8 ltac:(lia)) as [_ G]. now apply G.
  - intros Hn. unfold get_bits, r_is_empty. rewrite (Nat.eqb_sym (r_byte r)).
    destruct (length (r_buf r) =? r_byte r); [reflexivity|].
    destruct (Nat.ltb_spec 7 n); [reflexivity|lia].
Qed.

Example C02_nonvacuous : reader_ok (mkReader [0xA5; 0x3C]%N 0 5) /\
  get_bits 6 (mkReader [0xA5; 0x3C]%N 0 5) = (Ok 0x25%N, mkReader [0xA5; 0x3C]%N 1 3).
Proof.
  split; [|reflexivity]. unfold reader_ok; simpl.
  repeat split; try lia. repeat constructor.
Qed.

(** * C03 *)
(** The unread bytes of a reader. *)
Definition unread (r : Reader) : list N := skipn (r_byte r) (r_buf r).
Definition advanced (r : Reader) (n : nat) : Reader := mkReader (r_buf r) (r_byte r + n) (r_bit r).

Lemma split_reader r : reader_ok r -> r_bit r = 0 ->
  r = rd (firstn (r_byte r) (r_buf r)) (unread r) 0 /\ bytes (unread r) /\
  length (firstn (r_byte r) (r_buf r)) = r_byte r.
Proof.
  intros (Hb & Hle & _ & _) H0. unfold unread, rd. destruct r as [b k j]; simpl in *. subst j.
  rewrite firstn_skipn, firstn_length. replace (Nat.min k (length b)) with k by lia.
  repeat split; auto. now apply bytes_skipn.
Qed.

(** The decoders of the fixed-size reads, and their calls. *)
Inductive fixed_read := RdByte | RdU16 | RdU24 | RdU32.
Definition fixed_size (f : fixed_read) : nat := match f with RdByte => 1 | RdU16 => 2 | RdU24 => 3 | RdU32 => 4 end.
Definition fixed_call (f : fixed_read) : M Reader ReadError N :=
  match f with RdByte => get_byte | RdU16 => get_u16 | RdU24 => get_u24 | RdU32 => get_u32 end.
(** Little-endian value of a byte string. *)
Fixpoint le_number (l : list N) : N := match l with [] => 0 | b :: r => b + 256 * le_number r end%N.

Lemma fixed_rspec f : rspec 0 (fixed_call f) (fun bs v => length bs = fixed_size f /\ v = le_val bs) never.
Proof.
  destruct f; cbn [fixed_call fixed_size].
  - eapply rspec_weaken; [apply rspec_get_byte| |reflexivity]. intros bs v _. split.
    + intros ->. simpl. split; [auto|lia].
    + intros [H ->]. destruct bs as [|b [|]]; try discriminate. simpl. now rewrite N.mul_0_r, N.add_0_r.
  - eapply rspec_weaken; [apply rspec_get_u16| |reflexivity]. intros bs v Hb. split.
    + intros [-> H]. split; [reflexivity|]. rewrite le_val_bytes. symmetry. now apply N.mod_small.
    + intros [H ->]. split; [rewrite <- H; symmetry; now apply le_bytes_val|].
      change 65536%N with (256 ^ N.of_nat 2)%N. rewrite <- H. now apply le_val_bound.
  - eapply rspec_weaken; [apply rspec_get_u24| |reflexivity]. intros bs v Hb. split.
    + intros [-> H]. split; [reflexivity|]. rewrite le_val_bytes. symmetry. now apply N.mod_small.
    + intros [H ->]. split; [rewrite <- H; symmetry; now apply le_bytes_val|].
      change 16777216%N with (256 ^ N.of_nat 3)%N. rewrite <- H. now apply le_val_bound.
  - eapply rspec_weaken; [apply rspec_get_u32| |reflexivity]. intros bs v Hb. split.
    + intros [-> H]. split; [reflexivity|]. rewrite le_val_bytes. symmetry. now apply N.mod_small.
    + intros [H ->]. split; [rewrite <- H; symmetry; now apply le_bytes_val|].
      change 4294967296%N with (256 ^ N.of_nat 4)%N. rewrite <- H. now apply le_val_bound.
Qed.

Lemma rd_firstn r n : reader_ok r -> r_bit r = 0 -> n <= length (unread r) ->
  rd (firstn (r_byte r) (r_buf r) ++ firstn n (unread r)) (skipn n (unread r)) 0 = advanced r n.
Proof.
  intros Hok H0 Hn. pose proof Hok as (_ & Hle & _). unfold rd, advanced, unread in *.
  rewrite <- app_assoc, firstn_skipn, firstn_skipn, app_length, !firstn_length, H0.
  f_equal. lia.
Qed.

Lemma get_byte_empty r : r_bit r = 0 -> r_byte r = length (r_buf r) -> get_byte r = (Err BufferEmpty, r).
Proof. intros H0 H. unfold get_byte, r_is_aligned, r_is_empty. rewrite H0, H, !Nat.eqb_refl; reflexivity. Qed.

Theorem C03_fixed_reads f r : reader_ok r ->
  (r_bit r <> 0 -> fixed_call f r = (Err Unaligned, r)) /\
  (r_bit r = 0 -> fixed_size f <= length (unread r) ->
   fixed_call f r = (Ok (le_number (firstn (fixed_size f) (unread r))), advanced r (fixed_size f))) /\
  (r_bit r = 0 -> length (unread r) < fixed_size f ->
   exists r', fixed_call f r = (Err BufferEmpty, r') /\ r_buf r' = r_buf r /\ reader_ok r' /\ r_byte r <= r_byte r').
Proof.
  intros Hok. assert (LN : forall l, le_number l = le_val l) by (induction l; simpl; congruence).
  split; [|split].
  - intros H. destruct f; cbn [fixed_call]; unfold get_byte, get_u16, get_u24, get_u32, r_is_aligned;
      destruct (Nat.eqb_spec (r_bit r) 0); try lia; reflexivity.
  - intros H0 Hn. rewrite LN. destruct (split_reader r Hok H0) as (E & Hb & _).
    destruct (fixed_rspec f (firstn (r_byte r) (r_buf r)) (unread r) Hb) as (H1 & _ & _); [lia|].
    rewrite E at 1. rewrite (H1 (firstn (fixed_size f) (unread r)) (skipn (fixed_size f) (unread r))
                             (le_val (firstn (fixed_size f) (unread r)))).
    + f_equal. now apply rd_firstn.
    + now rewrite firstn_skipn.
    + split; auto. rewrite firstn_length. lia.
  - intros H0 Hn. pose proof Hok as (Hb & Hle & _ & _). unfold unread in Hn. rewrite skipn_length in Hn.
    destruct f; cbn [fixed_call fixed_size] in *.
    + exists r. rewrite get_byte_empty by lia. auto.
    + exists r. unfold get_u16, r_is_aligned, r_remaining. rewrite H0. simpl.
      destruct (Nat.ltb_spec (length (r_buf r) - r_byte r) 2); [auto|lia].
    + unfold get_u24, r_is_aligned. rewrite H0. cbn [negb Nat.eqb].
      assert (G : forall q, r_bit q = 0 -> r_buf q = r_buf r -> r_byte q < length (r_buf r) ->
                  exists b, get_byte q = (Ok b, r_adv q 1)).
      { intros q Hq1 Hq2 Hq3. unfold get_byte, r_is_aligned, r_is_empty, r_index. rewrite Hq1, Hq2. simpl.
        destruct (Nat.eqb_spec (length (r_buf r)) (r_byte q)); [lia|].
        destruct (nth_error (r_buf r) (r_byte q)) eqn:E; [eauto|]. apply nth_error_None in E. lia. }
      assert (OK : forall k, r_byte r + k <= length (r_buf r) -> reader_ok (r_adv r k)).
      { intros k Hk. unfold reader_ok, r_adv; simpl. rewrite H0. repeat split; auto; try lia. }
      unfold bind.
      destruct (Nat.eq_dec (r_byte r) (length (r_buf r))) as [E0|E0].
      { exists r. rewrite get_byte_empty by auto. auto. }
      destruct (G r H0 eq_refl ltac:(lia)) as (b0 & ->).
      destruct (Nat.eq_dec (r_byte (r_adv r 1)) (length (r_buf r))) as [E1|E1].
      { exists (r_adv r 1). rewrite get_byte_empty by auto. split; auto. split; auto. simpl in *. split; [apply OK|]; lia. }
      simpl in E1. destruct (G (r_adv r 1) H0 eq_refl ltac:(simpl; lia)) as (b1 & ->).
      exists (r_adv (r_adv r 1) 1). rewrite get_byte_empty; [|auto|simpl; lia].
      split; auto. split; auto. replace (r_adv (r_adv r 1) 1) with (r_adv r 2)
        by (unfold r_adv; simpl; f_equal; lia). simpl. split; [apply OK|]; lia.
    + exists r. unfold get_u32, r_is_aligned, r_remaining. rewrite H0. simpl.
      destruct (Nat.ltb_spec (length (r_buf r) - r_byte r) 4); [auto|lia].
Qed.

Theorem C03_get_slice size dest r : reader_ok r ->
  (r_bit r <> 0 -> get_slice size dest r = (Err Unaligned, r)) /\
  (r_bit r = 0 -> length (unread r) < size -> get_slice size dest r = (Err BufferEmpty, r)) /\
  (r_bit r = 0 -> size <= length (unread r) -> size <= dest ->
   get_slice size dest r = (Ok (firstn size (unread r)), advanced r size)).
Proof.
  intros Hok. split; [|split].
  - intros H. unfold get_slice, r_is_aligned. destruct (Nat.eqb_spec (r_bit r) 0); [lia|reflexivity].
  - intros H0 Hn. unfold unread in Hn. rewrite skipn_length in Hn.
    unfold get_slice, r_is_aligned, r_remaining. rewrite H0. simpl.
    destruct (Nat.ltb_spec (length (r_buf r) - r_byte r) size); [reflexivity|lia].
  - intros H0 Hn Hd. destruct (split_reader r Hok H0) as (E & Hb & _).
    destruct (rspec_get_slice size dest (firstn (r_byte r) (r_buf r)) (unread r) Hb) as (H1 & _ & _); [lia|].
    rewrite E at 1. rewrite (H1 (firstn size (unread r)) (skipn size (unread r)) (firstn size (unread r))).
    + f_equal. now apply rd_firstn.
    + now rewrite firstn_skipn.
    + rewrite firstn_length. repeat split; lia.
Qed.

(** skip_reserved accepts exactly runs of zero bytes. *)
Theorem C03_skip_reserved n r : reader_ok r -> r_bit r = 0 ->
  (forall r', skip_reserved n r = (Ok tt, r') <->
     n <= length (unread r) /\ firstn n (unread r) = zeros n /\ r' = advanced r n) /\
  (forall p, fst (skip_reserved n r) <> Panic p).
Proof.
  intros Hok H0. destruct (split_reader r Hok H0) as (E & Hb & _).
  destruct (rspec_skip_reserved n (firstn (r_byte r) (r_buf r)) (unread r) Hb) as (H1 & H2 & H3); [lia|].
  rewrite <- E in *. split.
  - intros r'. split.
    + intros Hr. destruct (H2 _ _ Hr) as (bs & rest & Eu & -> & _).
      assert (L : n <= length (unread r)) by (rewrite Eu, app_length, repeat_length; lia).
      assert (Ef : firstn n (unread r) = zeros n).
      { rewrite Eu. apply firstn_app_exact. unfold zeros; now rewrite repeat_length. }
      repeat split; auto. rewrite (H1 _ _ tt Eu eq_refl) in Hr. injection Hr as <-.
      rewrite <- (rd_firstn r n Hok H0 L). rewrite Ef. f_equal.
      rewrite Eu, skipn_app_exact by now rewrite repeat_length. reflexivity.
    + intros (L & Ef & ->). rewrite (H1 (zeros n) (skipn n (unread r)) tt).
      * f_equal. rewrite <- Ef. now apply rd_firstn.
      * rewrite <- Ef. now rewrite firstn_skipn.
      * reflexivity.
  - intros p Hp. apply H3. destruct (skip_reserved n r) as [x s]. simpl in Hp. subst. eauto.
Qed.

Example C03_nonvacuous :
  get_u16 (mkReader [1; 2; 3]%N 1 0) = (Ok 0x0302%N, mkReader [1; 2; 3]%N 3 0) /\
  get_u24 (mkReader [1; 2; 3]%N 1 0) = (Err BufferEmpty, mkReader [1; 2; 3]%N 3 0).
Proof. split; reflexivity. Qed.

(** * C04 *)
Definition wput (f : fixed_read) (v : N) : M Writer BufferFullError nat :=
  match f with RdByte => put v | RdU16 => put_u16 v | RdU24 => put_u24 v | RdU32 => put_u32 v end.

Lemma wput_emits f v o : emits o (wput f v) BufferFull
  (match f with RdByte => [v] | _ => le_bytes (fixed_size f) v end) (o + fixed_size f).
Proof.
  destruct f; cbn [wput fixed_size].
  - eapply emits_eq; [apply emits_put|reflexivity|lia].
  - apply emits_put_u16.
  - apply emits_put_u24.
  - apply emits_put_u32.
Qed.

(** Writing [v] anywhere it fits and reading at that place returns [v] modulo the
    width (for u8 the argument type bounds it). *)
Theorem C04_int_roundtrip f v w : bytes (w_buf w) ->
  w_off w + fixed_size f <= length (w_buf w) -> (f = RdByte -> (v < 256)%N) ->
  exists w', wput f v w = (Ok (w_off w + fixed_size f), w') /\
    fixed_call f (mkReader (w_buf w') (w_off w) 0) =
      (Ok (v mod 256 ^ N.of_nat (fixed_size f))%N, mkReader (w_buf w') (w_off w + fixed_size f) 0).
Proof.
  intros Hb Hfit H8. destruct (wput_emits f v (w_off w) w) as [Ha _]; [unfold w_wf; lia|reflexivity|].
  set (enc := match f with RdByte => [v] | _ => le_bytes (fixed_size f) v end) in *.
  assert (Hlen : length enc = fixed_size f) by (destruct f; reflexivity).
  assert (Henc : bytes enc).
  { unfold enc. destruct f; try apply le_bytes_bytes. constructor; auto. now apply H8. }
  assert (Hval : le_val enc = (v mod 256 ^ N.of_nat (fixed_size f))%N).
  { unfold enc. destruct f; try apply le_val_bytes. simpl. change (256 ^ N.of_nat 1)%N with 256%N.
    rewrite N.mod_small by auto. lia. }
  rewrite Ha by lia. eexists. split; [reflexivity|].
  assert (Hb' : bytes (enc ++ skipn (w_off w + length enc) (w_buf w))).
  { apply bytes_app. split; auto. now apply bytes_skipn. }
  destruct (fixed_rspec f (firstn (w_off w) (w_buf w)) _ Hb') as (H1 & _ & _); [lia|].
  unfold w_app; cbn [w_buf].
  assert (L : length (firstn (w_off w) (w_buf w)) = w_off w) by (rewrite firstn_length; lia).
  specialize (H1 enc _ _ eq_refl (conj Hlen eq_refl)).
  rewrite rd_app, L, Hlen in H1. unfold rd in H1. rewrite L in H1. rewrite Hlen. rewrite H1.
  now rewrite Hval.
Qed.

Corollary C04_int_roundtrip_exact f v w : bytes (w_buf w) ->
  w_off w + fixed_size f <= length (w_buf w) -> (v < 256 ^ N.of_nat (fixed_size f))%N ->
  exists w', wput f v w = (Ok (w_off w + fixed_size f), w') /\
    fixed_call f (mkReader (w_buf w') (w_off w) 0) = (Ok v, mkReader (w_buf w') (w_off w + fixed_size f) 0).
Proof.
  intros Hb Hf Hv. destruct (C04_int_roundtrip f v w Hb Hf) as (w' & H1 & H2).
  - now intros ->.
  - exists w'. rewrite N.mod_small in H2 by auto. auto.
Qed.

Example C04_nonvacuous :
  wput RdU24 0x1020304%N (writer_new [9; 9; 9; 9]%N) = (Ok 3, mkWriter [4; 3; 2; 9]%N 3) /\
  get_u24 (reader_new [4; 3; 2; 9]%N) = (Ok 0x20304%N, mkReader [4; 3; 2; 9]%N 3 0).
Proof. split; reflexivity. Qed.

(** * C05 *)
Inductive rop :=
| RGetByte | RGetU16 | RGetU24 | RGetU32 | RGetBits (n : nat) | RGetBit
| RSkipReserved (n : nat) | RSkipIgnored (n : nat) | RGetSlice (size dest : nat).
(** The call, its result reduced to whether it returned, failed or panicked. *)
Definition rop_call (op : rop) (r : Reader) : res ReadError unit * Reader :=
  let strip {A} (x : res ReadError A * Reader) := (rmap (fun _ => tt) (fst x), snd x) in
  match op with
  | RGetByte => strip (get_byte r) | RGetU16 => strip (get_u16 r) | RGetU24 => strip (get_u24 r)
  | RGetU32 => strip (get_u32 r) | RGetBits n => strip (get_bits n r) | RGetBit => strip (get_bit r)
  | RSkipReserved n => strip (skip_reserved n r) | RSkipIgnored n => strip (skip_ignored n r)
  | RGetSlice size dest => strip (get_slice size dest r)
  end.
(** The documented preconditions whose violation panics. *)
Definition rop_allowed (op : rop) : Prop :=
  match op with
  | RGetBits n => overflow_checks = true -> n <> 0
  | RGetSlice size dest => size <= dest
  | _ => True
  end.
Fixpoint rop_run (ops : list rop) (r : Reader) : list (res ReadError unit) * Reader :=
  match ops with
  | [] => ([], r)
  | op :: rest => let '(a, r1) := rop_call op r in
                  match a with
                  | Panic p => ([Panic p], r1)
                  | _ => let '(l, r2) := rop_run rest r1 in (a :: l, r2)
                  end
  end.

Definition safe_step {A} (r : Reader) (x : res ReadError A * Reader) : Prop :=
  (forall p, fst x <> Panic p) /\ reader_ok (snd x) /\ r_buf (snd x) = r_buf r.

Lemma ok_adv r n : reader_ok r -> r_bit r = 0 -> r_byte r + n <= length (r_buf r) -> reader_ok (r_adv r n).
Proof. intros (H1 & H2 & H3 & H4) H0 Hn. unfold reader_ok, r_adv; simpl. rewrite H0. repeat split; auto; lia. Qed.

Lemma safe_get_byte r : reader_ok r -> safe_step r (get_byte r).
Proof.
  intros Hok. pose proof Hok as (H1 & H2 & H3 & H4). unfold get_byte, r_is_aligned, r_is_empty, r_index.
  destruct (Nat.eqb_spec (r_bit r) 0) as [E|E]; [|split; [discriminate|auto]]. cbn [negb].
  destruct (Nat.eqb_spec (length (r_buf r)) (r_byte r)); [split; [discriminate|auto]|].
  destruct (nth_error (r_buf r) (r_byte r)) eqn:N0; [|apply nth_error_None in N0; lia].
  split; [discriminate|]. split; auto. apply ok_adv; auto. simpl in *. lia.
Qed.
Lemma safe_bind {A B} r (m : M Reader ReadError A) (k : A -> M Reader ReadError B) :
  safe_step r (m r) -> (forall a r', reader_ok r' -> r_buf r' = r_buf r -> safe_step r' (k a r')) ->
  safe_step r (bind m k r).
Proof.
  intros (H1 & H2 & H3) Hk. unfold bind. destruct (m r) as [[a|e|p] s]; simpl in *.
  - destruct (Hk a s H2 H3) as (K1 & K2 & K3). repeat split; auto; try apply K2. congruence.
  - split; [discriminate|auto].
  - exfalso. eapply H1; eauto.
Qed.
Lemma safe_ret {A} r (a : A) : reader_ok r -> safe_step r (ret a r).
Proof. intros. split; [discriminate|auto]. Qed.
Lemma safe_repeat n (m : M Reader ReadError unit) : (forall r, reader_ok r -> safe_step r (m r)) ->
  forall r, reader_ok r -> safe_step r (repeatM n m r).
Proof.
  intros H. induction n; intros r Hr; cbn [repeatM]; [now apply safe_ret|].
  apply safe_bind; auto.
Qed.
Lemma safe_slice r n m : reader_ok r ->
  m = (if negb (r_is_aligned r) then (Err Unaligned, r)
       else if r_remaining r <? n then (Err BufferEmpty, r)
       else match @r_slice ReadError r (r_byte r) n with
            | Ok bs => (Ok (le_val bs), r_adv r n) | Err e => (Err e, r) | Panic p => (Panic p, r) end) ->
  @safe_step N r m.
Proof.
  intros Hok Hm. rewrite Hm. pose proof Hok as (H1 & H2 & H3 & H4).
  unfold r_is_aligned, r_remaining, r_slice.
  destruct (Nat.eqb_spec (r_bit r) 0) as [E|E]; [|split; [discriminate|auto]]. cbn [negb].
  destruct (Nat.ltb_spec (length (r_buf r) - r_byte r) n); [split; [discriminate|auto]|].
  destruct (Nat.leb_spec (r_byte r + n) (length (r_buf r))); [|lia].
  split; [discriminate|]. split; auto. now apply ok_adv.
Qed.

Lemma safe_get_bits r n : reader_ok r -> (overflow_checks = true -> n <> 0) -> safe_step r (get_bits n r).
Proof.
  intros Hok Hn. destruct (C02_get_bits r n Hok) as (Ha & Hb & Hc).
  destruct (Nat.lt_ge_cases 7 n) as [L|L]; [rewrite Hc by auto; split; [discriminate|auto]|].
  destruct (Nat.eq_dec n 0) as [->|Hnz].
  - assert (OC : overflow_checks = false) by (destruct overflow_checks; auto; exfalso; now apply Hn).
    pose proof Hok as (B & Hle & H8 & Hne).
    unfold get_bits, r_is_empty. rewrite OC.
    destruct (Nat.eqb_spec (length (r_buf r)) (r_byte r)); [split; [discriminate|auto]|].
    clear Ha Hb Hc Hn. destruct r as [b k j]; cbn [r_buf r_byte r_bit] in *. unfold r_index; cbn [r_buf].
    destruct (nth_error b k) eqn:N0; [|apply nth_error_None in N0; lia].
    do 8 (destruct j as [|j]; [split; [simpl; discriminate|]; split; [exact Hok|reflexivity]|]). lia.
  - destruct (Nat.le_gt_cases (reader_pos r + n) (8 * length (r_buf r))) as [F|F].
    + destruct Ha as (r' & -> & Hbuf & _ & Hok'); [lia|auto|]. split; [discriminate|auto].
    + rewrite Hb by lia. split; [discriminate|auto].
Qed.

Lemma safe_strip {A} r (x : res ReadError A * Reader) : safe_step r x ->
  safe_step r (rmap (fun _ => tt) (fst x), snd x).
Proof.
  intros (H1 & H2 & H3). split; [|auto]. destruct x as [[a|e|p] s]; simpl in *; try discriminate.
  exfalso. eapply H1; eauto.
Qed.

Lemma rop_safe op r : reader_ok r -> rop_allowed op -> safe_step r (rop_call op r).
Proof.
  intros Hok Hal. destruct op; cbn [rop_call rop_allowed] in *; apply safe_strip.
  - now apply safe_get_byte.
  - apply (safe_slice r 2); auto.
  - unfold get_u24. destruct (negb (r_is_aligned r)); [split; [discriminate|auto]|].
    apply safe_bind; [now apply safe_get_byte|]. intros b0 r0 Hr0 _.
    apply safe_bind; [now apply safe_get_byte|]. intros b1 r1 Hr1 _.
    apply safe_bind; [now apply safe_get_byte|]. intros b2 r2 Hr2 _. now apply safe_ret.
  - apply (safe_slice r 4); auto.
  - now apply safe_get_bits.
  - apply safe_get_bits; auto.
  - apply safe_repeat; auto. intros q Hq. apply safe_bind; [now apply safe_get_byte|].
    intros b r' Hr' _. destruct (negb (b =? 0)%N); [split; [discriminate|auto]|now apply safe_ret].
  - apply safe_repeat; auto. intros q Hq. apply safe_bind; [now apply safe_get_byte|].
    intros b r' Hr' _. now apply safe_ret.
  - pose proof Hok as (H1 & H2 & H3 & H4). unfold get_slice, r_is_aligned, r_remaining, r_slice.
    destruct (Nat.eqb_spec (r_bit r) 0) as [E|E]; [|split; [discriminate|auto]]. cbn [negb].
    destruct (Nat.ltb_spec (length (r_buf r) - r_byte r) size); [split; [discriminate|auto]|].
    destruct (Nat.ltb_spec dest size); [lia|].
    destruct (Nat.leb_spec (r_byte r + size) (length (r_buf r))); [|lia].
    split; [discriminate|]. split; auto. now apply ok_adv.
Qed.

(** Any sequence of allowed calls on a fresh reader: nobody panics, the cursor
    stays in the buffer. *)
Theorem C05_cursor_safety ops buf : bytes buf -> Forall rop_allowed ops ->
  let '(results, r) := rop_run ops (reader_new buf) in
  length results = length ops /\ Forall (fun x => forall p, x <> Panic p) results /\
  r_buf r = buf /\ r_byte r <= length buf /\ r_bit r < 8 /\ (r_bit r <> 0 -> r_byte r < length buf).
Proof.
  intros Hb HF.
  assert (G : forall r, reader_ok r -> r_buf r = buf ->
    let '(results, r') := rop_run ops r in
    length results = length ops /\ Forall (fun x => forall p, x <> Panic p) results /\
    r_buf r' = buf /\ reader_ok r').
  { induction HF as [|op ops Hop HF IH]; intros r Hr Hbuf; cbn [rop_run].
    - auto.
    - destruct (rop_safe op r Hr Hop) as (S1 & S2 & S3).
      destruct (rop_call op r) as [a r1]. simpl in S1, S2, S3.
      specialize (IH r1 S2 ltac:(congruence)).
      destruct (rop_run ops r1) as [l r2]. destruct IH as (I1 & I2 & I3 & I4).
      destruct a as [u|e|p]; [| |exfalso; eapply S1; eauto];
        simpl; (split; [lia|]); (split; [constructor; auto; discriminate|auto]). }
  assert (R0 : reader_ok (reader_new buf)) by (unfold reader_ok; simpl; repeat split; auto; lia).
  specialize (G (reader_new buf) R0 eq_refl).
  destruct (rop_run ops (reader_new buf)) as [results r]. destruct G as (G1 & G2 & G3 & G4 & G5 & G6 & G7).
  rewrite G3 in *. auto 10.
Qed.

(** The two exceptions are real: both calls panic as soon as their
    preconditions are violated on a reader with data left. *)
Theorem C05_bits0_panics r : reader_ok r -> r_byte r < length (r_buf r) -> overflow_checks = true ->
  exists p r', get_bits 0 r = (Panic p, r').
Proof.
  intros (B & Hle & H8 & Hne) L OC. unfold get_bits, r_is_empty. rewrite OC.
  destruct (Nat.eqb_spec (length (r_buf r)) (r_byte r)); [lia|].
  destruct r as [b k j]; cbn [r_buf r_byte r_bit] in *. unfold r_index; cbn [r_buf].
  destruct (nth_error b k) eqn:N0; [|apply nth_error_None in N0; lia].
  do 8 (destruct j as [|j]; [simpl; eauto|]). lia.
Qed.
Theorem C05_short_dest_panics r size dest : reader_ok r -> r_bit r = 0 -> size <= length (unread r) -> dest < size ->
  exists p r', get_slice size dest r = (Panic p, r').
Proof.
  intros Hok H0 Hs Hd. destruct (split_reader r Hok H0) as (E & Hb & _).
  destruct (rspec_get_slice size dest (firstn (r_byte r) (r_buf r)) (unread r) Hb) as (_ & _ & H3); [lia|].
  rewrite <- E in H3. apply H3. lia.
Qed.
Example C05_nonvacuous :
  rop_run [RGetByte; RGetBits 3; RGetU16; RGetBits 5; RGetU16; RGetU32] (reader_new [1; 2; 3; 4; 5]%N) =
  ([Ok tt; Ok tt; Err Unaligned; Ok tt; Ok tt; Err BufferEmpty], mkReader [1; 2; 3; 4; 5]%N 4 0).
Proof. reflexivity. Qed.
End Props.

Print Assumptions C01_writer_appends.
Print Assumptions C02_get_bits.
Print Assumptions C03_fixed_reads.
Print Assumptions C03_get_slice.
Print Assumptions C03_skip_reserved.
Print Assumptions C04_int_roundtrip.
Print Assumptions C05_cursor_safety.
