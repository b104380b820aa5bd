(** C84: no length computation overflows a machine word. *)
From Verif Require Import Base BaseLemmas Config Encoding MsgCommon MsgCertificates MsgMeasurements Transcript Crypto Word
     WriterLogic ReaderLogic ReaderBits ReaderLoops SpecWire PropEncoding PropTranscript Sample.

Section PropWord.
Context {cfg : Config} {wd : Word}.

(** What a slice or array in memory satisfies: at most [isize::MAX] bytes. *)
Definition in_memory {A} (l : list A) : Prop := (2 * N.of_nat (length l) < word_size)%N.

Lemma word_4G : (4294967296 <= word_size)%N.
Proof. unfold word_size. change 4294967296%N with (2 ^ 32)%N. apply N.pow_le_mono_r; [discriminate|exact word_large]. Qed.
Lemma wadd_ok {E} a b : (N.of_nat (a + b) < word_size)%N -> @wadd cfg wd E a b = Ok (a + b).
Proof. intros H. unfold wadd. destruct (N.ltb_spec (N.of_nat (a + b)) word_size); [reflexivity|lia]. Qed.
Lemma wsub_ok {E} a b : b <= a -> @wsub cfg wd E a b = Ok (a - b).
Proof. intros H. unfold wsub. destruct (Nat.leb_spec b a); [reflexivity|lia]. Qed.

(** * Writer *)
Definition wok (w : Writer) : Prop := w_off w <= length (w_buf w) /\ in_memory (w_buf w).
Definition wsame {E A} (m m' : M Writer E A) : Prop := forall w, wok w -> m w = m' w /\ wok (snd (m' w)).
Lemma wsame_refl {E A} (m : M Writer E A) : (forall w, wok w -> wok (snd (m w))) -> wsame m m.
Proof. intros H w W. auto. Qed.
Lemma wsame_bind {E A B} (m m' : M Writer E A) (k k' : A -> M Writer E B) :
  wsame m m' -> (forall x, wsame (k x) (k' x)) -> wsame (bind m k) (bind m' k').
Proof.
  intros H K w W. destruct (H w W) as [E1 W1]. unfold bind. rewrite E1. destruct (m' w) as [[x|e|p] w1]; cbn [snd] in *; auto. now apply K.
Qed.
Lemma wsame_map {E F A} (f : E -> F) (m m' : M Writer E A) : wsame m m' -> wsame (map_err f m) (map_err f m').
Proof. intros H w W. destruct (H w W) as [E1 W1]. unfold map_err. rewrite E1. destruct (m' w) as [[x|e|p] w1]; auto. Qed.
Lemma wsame_ret {E A} (x : A) : @wsame E A (ret x) (ret x). Proof. intros w W. auto. Qed.
Lemma wsame_err {E A} (e : E) : @wsame E A (err e) (err e). Proof. intros w W. auto. Qed.
Lemma wsame_off {E} : @wsame E nat w_offset w_offset. Proof. intros w W. auto. Qed.
Lemma wsame_repeat {E} n (m m' : M Writer E unit) : wsame m m' -> wsame (repeatM n m) (repeatM n m').
Proof. intros H. induction n; cbn [repeatM]; [apply wsame_ret|]. apply wsame_bind; auto. Qed.
Lemma wsame_iter {E A} (xs : list A) (f f' : A -> M Writer E unit) : (forall x, wsame (f x) (f' x)) -> wsame (iterM xs f) (iterM xs f').
Proof. intros H. induction xs; cbn [iterM]; [apply wsame_ret|]. apply wsame_bind; auto. Qed.
Lemma wsame_put v : wsame (put_w v) (put v).
Proof.
  intros w [L I]. unfold put_w, put, w_is_full. destruct (Nat.eqb_spec (w_off w) (length (w_buf w))) as [E|N]; [split; [reflexivity|now split]|].
  destruct (Nat.ltb_spec (w_off w) (length (w_buf w))) as [L'|L']; [|lia].
  unfold in_memory in I. rewrite wadd_ok by lia. split; [reflexivity|]. unfold wok, in_memory. cbn [snd w_buf w_off]. rewrite upd_length. lia.
Qed.
Lemma wsame_extend bs : wsame (w_extend_w bs) (w_extend bs).
Proof.
  intros w [L I]. unfold w_extend_w, w_extend, w_remaining_w. unfold in_memory in I.
  unfold bind at 1, lift at 1. rewrite wsub_ok by lia. change (length (w_buf w) - w_off w) with (w_remaining w).
  destruct (Nat.ltb_spec (w_remaining w) (length bs)) as [B|B]; [split; [reflexivity|now split]|]. unfold w_remaining in B.
  unfold bind, lift. rewrite wadd_ok by lia. destruct (Nat.leb_spec (w_off w + length bs) (length (w_buf w))); [|lia].
  destruct (Nat.leb_spec (w_off w) (w_off w + length bs)); [|lia]. split; [reflexivity|].
  unfold wok, in_memory. cbn [snd w_buf w_off]. rewrite !app_length, firstn_length, skipn_length. lia.
Qed.
Lemma three_bytes k v : 3 <= k -> firstn 3 (le_bytes k v) = firstn 3 (le_bytes 8 v).
Proof. intros H. destruct k as [|[|[|k]]]; try lia. reflexivity. Qed.
Definition wop_call_w (op : wop) : M Writer BufferFullError nat :=
  match op with
  | OpPut b => put_w b | OpPutReserved n => put_reserved_w n | OpPutU16 v => put_u16_w v | OpPutU24 v => put_u24_w v
  | OpPutU32 v => put_u32_w v | OpExtend bs => w_extend_w bs
  end.
Fixpoint wop_run_w (ops : list wop) (w : Writer) : list (res BufferFullError nat) * Writer :=
  match ops with
  | [] => ([], w)
  | op :: r => let '(a, w1) := wop_call_w op w in
               let '(l, w2) := wop_run_w r w1 in (a :: l, w2)
  end.
Lemma wsame_put_u16 v : wsame (put_u16_w v) (put_u16 v).
Proof. apply wsame_bind; [|intros; apply wsame_off]. apply wsame_iter. intros b. apply wsame_bind; [apply wsame_put|intros; apply wsame_ret]. Qed.
Lemma wsame_put_reserved n : wsame (put_reserved_w n) (put_reserved n).
Proof. apply wsame_bind; [|intros; apply wsame_off]. apply wsame_repeat. apply wsame_bind; [apply wsame_put|intros; apply wsame_ret]. Qed.
Lemma wsame_op op : wsame (wop_call_w op) (wop_call op).
Proof.
  destruct op; cbn [wop_call_w wop_call]; [apply wsame_put|apply wsame_put_reserved|apply wsame_put_u16| | |apply wsame_extend].
  - unfold put_u24_w, put_u24. rewrite three_bytes.
    2: { assert (4 <= word_bits / 8)%N by (apply N.div_le_lower_bound; [discriminate|exact word_large]). lia. }
    apply wsame_bind; [|intros; apply wsame_off]. apply wsame_iter. intros b. apply wsame_bind; [apply wsame_put|intros; apply wsame_ret].
  - apply wsame_bind; [|intros; apply wsame_off]. apply wsame_iter. intros b. apply wsame_bind; [apply wsame_put|intros; apply wsame_ret].
Qed.
(** Whatever is called on a new writer over a buffer in memory: machine
    arithmetic gives what unbounded arithmetic gives. *)
Theorem C84_writer ops buf : in_memory buf -> wop_run_w ops (writer_new buf) = wop_run ops (writer_new buf).
Proof.
  intros I. assert (G : forall w, wok w -> wop_run_w ops w = wop_run ops w); [|apply G; split; [apply Nat.le_0_l|exact I]].
  induction ops as [|op ops IH]; intros w W; [reflexivity|]. cbn [wop_run_w wop_run].
  destruct (wsame_op op w W) as [-> W1]. destruct (wop_call op w) as [a w1]. cbn [snd] in W1. now rewrite IH.
Qed.

(** * Reader *)
Definition rok (r : Reader) : Prop := reader_ok r /\ in_memory (r_buf r).
Definition rsame {E A} (m m' : M Reader E A) : Prop :=
  forall r, rok r -> m r = m' r /\ rok (snd (m' r)) /\ r_buf (snd (m' r)) = r_buf r.
Lemma rsame_bind {E A B} (m m' : M Reader E A) (k k' : A -> M Reader E B) :
  rsame m m' -> (forall x, rsame (k x) (k' x)) -> rsame (bind m k) (bind m' k').
Proof.
  intros H K r R. destruct (H r R) as (E1 & R1 & B1). unfold bind. rewrite E1. destruct (m' r) as [[x|e|p] r1]; cbn [snd] in *; auto.
  destruct (K x r1 R1) as (E2 & R2 & B2). rewrite E2. split; [reflexivity|]. split; [exact R2|congruence].
Qed.
Lemma rsame_map {E F A} (f : E -> F) (m m' : M Reader E A) : rsame m m' -> rsame (map_err f m) (map_err f m').
Proof. intros H r R. destruct (H r R) as (E1 & R1 & B1). unfold map_err. rewrite E1. destruct (m' r) as [[x|e|p] r1]; auto. Qed.
Lemma rsame_ret {E A} (x : A) : @rsame E A (ret x) (ret x). Proof. intros r R. auto. Qed.
Lemma rsame_err {E A} (e : E) : @rsame E A (err e) (err e). Proof. intros r R. auto. Qed.
Lemma rsame_pnc {E A} p : @rsame E A (pnc p) (pnc p). Proof. intros r R. auto. Qed.
Lemma rsame_repeat {E} n (m m' : M Reader E unit) : rsame m m' -> rsame (repeatM n m) (repeatM n m').
Proof. intros H. induction n; cbn [repeatM]; [apply rsame_ret|]. apply rsame_bind; auto. Qed.
Lemma rok_adv r n : rok r -> r_bit r = 0 -> r_byte r + n <= length (r_buf r) -> rok (r_adv r n).
Proof. intros [R I] H0 L. split; [now apply ok_adv|exact I]. Qed.
Lemma rsame_byte : rsame get_byte_w get_byte.
Proof.
  intros r [R I]. unfold get_byte_w, get_byte, r_is_aligned, r_is_empty. pose proof R as (_ & L & _).
  destruct (Nat.eqb_spec (r_bit r) 0) as [H0|H0]; cbn [negb]; [|split; [reflexivity|split; [now split|reflexivity]]].
  destruct (Nat.eqb_spec (length (r_buf r)) (r_byte r)) as [E|E]; [split; [reflexivity|split; [now split|reflexivity]]|].
  unfold bind, lift, r_index. destruct (nth_error (r_buf r) (r_byte r)) as [b|]; [|split; [reflexivity|split; [now split|reflexivity]]].
  unfold r_adv_w. unfold in_memory in I. rewrite wadd_ok by lia. split; [reflexivity|]. split; [|reflexivity]. apply rok_adv; [now split|auto|lia].
Qed.
Lemma byte_after r b r1 : rok r -> get_byte r = (Ok b, r1) -> is_byte b.
Proof.
  intros [(HB & _) _] H. unfold get_byte, r_index in H. destruct (negb (r_is_aligned r)); [discriminate|]. destruct (r_is_empty r); [discriminate|].
  destruct (nth_error (r_buf r) (r_byte r)) as [x|] eqn:E; [|discriminate]. injection H as <- _.
  apply nth_error_In in E. unfold bytes in HB. rewrite Forall_forall in HB. now apply HB.
Qed.
(** A bind where the continuations need to agree on the results possible only. *)
Lemma rsame_bind_byte {E B} (f : ReadError -> E) (k k' : N -> M Reader E B) :
  (forall b, is_byte b -> rsame (k b) (k' b)) -> rsame (bind (map_err f get_byte_w) k) (bind (map_err f get_byte) k').
Proof.
  intros K r R. destruct (rsame_byte r R) as (E1 & R1 & B1). unfold bind, map_err. rewrite E1. destruct (get_byte r) as [[x|e|p] r1] eqn:EG; cbn [snd] in *; auto.
  destruct (K x (byte_after _ _ _ R EG) r1 R1) as (E2 & R2 & B2). rewrite E2. split; [reflexivity|]. split; [exact R2|congruence].
Qed.
Lemma rsame_skip_reserved n : rsame (skip_reserved_w n) (skip_reserved n).
Proof.
  apply rsame_repeat. apply rsame_bind; [apply rsame_byte|]. intros b. destruct (negb _); [apply rsame_err|apply rsame_ret].
Qed.
Lemma rsame_skip_ignored n : rsame (skip_ignored_w n) (skip_ignored n).
Proof. apply rsame_repeat. apply rsame_bind; [apply rsame_byte|]. intros b. apply rsame_ret. Qed.
Lemma slice_ok r n : r_byte r + n <= length (r_buf r) -> @r_slice ReadError r (r_byte r) n = Ok (slice (r_buf r) (r_byte r) (r_byte r + n)).
Proof. intros L. unfold r_slice. destruct (Nat.leb_spec (r_byte r + n) (length (r_buf r))); [reflexivity|lia]. Qed.
Lemma word_step n r : rok r -> r_bit r = 0 ->
  ((remaining <- lift (r_remaining_w r) ;;
    if remaining <? n then err BufferEmpty
    else bs <- lift (r_slice_w r (r_byte r) n) ;; r_adv_w n ;;; ret (le_val bs)) r =
   if r_remaining r <? n then (Err BufferEmpty, r)
   else match r_slice r (r_byte r) n with Ok bs => (Ok (le_val bs), r_adv r n) | Err e => (Err e, r) | Panic p => (Panic p, r) end) /\
  (r_remaining r <? n = false -> r_byte r + n <= length (r_buf r)).
Proof.
  intros [R I] H0. pose proof R as (_ & L & _). unfold in_memory in I. unfold r_remaining_w. unfold bind at 1, lift at 1. rewrite wsub_ok by lia.
  change (length (r_buf r) - r_byte r) with (r_remaining r). split.
  - destruct (Nat.ltb_spec (r_remaining r) n) as [B|B]; [reflexivity|]. unfold r_remaining in B. rewrite slice_ok by lia.
    unfold bind, lift, r_slice_w, rbind. rewrite wadd_ok by lia.
    destruct (Nat.leb_spec (r_byte r) (r_byte r + n)); [|lia]. destruct (Nat.leb_spec (r_byte r + n) (length (r_buf r))); [|lia]. cbn [andb].
    unfold r_adv_w. rewrite wadd_ok by lia. reflexivity.
  - destruct (Nat.ltb_spec (r_remaining r) n); [discriminate|]. intros _. unfold r_remaining in *. lia.
Qed.
Lemma rsame_word n m : (forall r, m r = if negb (r_is_aligned r) then (Err Unaligned, r)
    else if r_remaining r <? n then (Err BufferEmpty, r)
    else match r_slice r (r_byte r) n with Ok bs => (Ok (le_val bs), r_adv r n) | Err e => (Err e, r) | Panic p => (Panic p, r) end) ->
  rsame (get_word_w n) m.
Proof.
  intros Hm r R. rewrite Hm. unfold get_word_w, r_is_aligned. destruct (Nat.eqb_spec (r_bit r) 0) as [H0|H0]; cbn [negb]; [|auto].
  destruct (word_step n r R H0) as [-> L]. split; [reflexivity|]. destruct (r_remaining r <? n) eqn:B; [auto|]. specialize (L eq_refl).
  rewrite slice_ok by exact L. split; [now apply rok_adv|reflexivity].
Qed.
Lemma rsame_u16 : rsame get_u16_w get_u16. Proof. apply rsame_word. reflexivity. Qed.
Lemma rsame_u32 : rsame get_u32_w get_u32. Proof. apply rsame_word. reflexivity. Qed.
Lemma lor_bound a b c : is_byte a -> is_byte b -> is_byte c -> (N.lor (N.lor a (N.shiftl b 8)) (N.shiftl c 16) < 4294967296)%N.
Proof.
  unfold is_byte. intros A B C. change 4294967296%N with (2 ^ 32)%N.
  assert (X : forall x y n, (x < 2 ^ n)%N -> (y < 2 ^ n)%N -> (N.lor x y < 2 ^ n)%N).
  { intros x y n Hx Hy. destruct (N.eq_dec (N.lor x y) 0) as [->|Z]; [apply N.neq_0_lt_0, N.pow_nonzero; discriminate|].
    apply N.log2_lt_pow2; [lia|]. rewrite N.log2_lor. apply N.max_lub_lt.
    - destruct (N.eq_dec x 0) as [->|]; [|apply N.log2_lt_pow2; lia].
      destruct (N.eq_dec n 0) as [->|]; [|cbn; lia]. change (2 ^ 0)%N with 1%N in Hy. assert (y = 0)%N by lia. subst. now destruct Z.
    - destruct (N.eq_dec y 0) as [->|]; [|apply N.log2_lt_pow2; lia].
      destruct (N.eq_dec n 0) as [->|]; [|cbn; lia]. change (2 ^ 0)%N with 1%N in Hx. assert (x = 0)%N by lia. subst. now destruct Z. }
  apply X; [apply X|]; rewrite ?N.shiftl_mul_pow2; lia.
Qed.
Lemma rsame_u24 : rsame get_u24_w get_u24.
Proof.
  intros r R. unfold get_u24_w, get_u24, r_is_aligned. destruct (Nat.eqb_spec (r_bit r) 0) as [H0|H0]; cbn [negb]; [|auto].
  assert (ID : forall B (m : M Reader ReadError N) (k : N -> M Reader ReadError B) x, bind (map_err (fun e => e) m) k x = bind m k x).
  { intros B m k x. unfold bind, map_err. now destruct (m x) as [[y|e|p] s]. }
  match goal with |- ?a r = ?b r /\ _ => assert (G : rsame a b); [|exact (G r R)] end.
  intros q Q.
  assert (G : forall k k' : N -> M Reader ReadError N, (forall b, is_byte b -> rsame (k b) (k' b)) -> rsame (bind get_byte_w k) (bind get_byte k')).
  { intros k k' H x X. rewrite <- (ID _ get_byte_w k x), <- (ID _ get_byte k' x). now apply (rsame_bind_byte (fun e => e)). }
  revert q Q. apply G. intros b0 H1. apply G. intros b1 H2. apply G. intros b2 H3. cbn zeta.
  pose proof (lor_bound b0 b1 b2 H1 H2 H3) as LB. pose proof word_4G.
  destruct (N.ltb_spec (N.lor (N.lor b0 (N.shiftl b1 8)) (N.shiftl b2 16)) word_size); [apply rsame_ret|lia].
Qed.
Lemma bits_ok n r : reader_ok r -> reader_ok (snd (get_bits n r)) /\ r_buf (snd (get_bits n r)) = r_buf r.
Proof.
  intros R. pose proof R as (HB & L & L8 & LB). unfold get_bits, r_is_empty.
  destruct (Nat.eqb_spec (length (r_buf r)) (r_byte r)) as [E|E]; [auto|]. destruct (Nat.ltb_spec 7 n); [auto|].
  destruct (Nat.leb_spec 8 (r_bit r + n)) as [G|G].
  - destruct ((r_byte r + 1 =? length (r_buf r)) && negb (r_bit r + n - 8 =? 0)) eqn:C; [auto|].
    match goal with |- context [match ?v with Ok _ => _ | Err _ => _ | Panic _ => _ end] => destruct v end; auto.
    cbn [snd r_buf]. split; [|reflexivity]. unfold reader_ok. cbn. repeat split; auto; lia.
  - match goal with |- context [match ?v with Ok _ => _ | Err _ => _ | Panic _ => _ end] => destruct v end; auto.
    cbn [snd r_buf]. split; [|reflexivity]. unfold reader_ok. cbn. repeat split; auto; lia.
Qed.
Lemma rsame_bits n : rsame (get_bits_w n) (get_bits n).
Proof.
  intros r R. pose proof R as [Rk I]. destruct (bits_ok n r Rk) as [K1 K2]. split.
  2: { split; [|exact K2]. split; [exact K1|]. now rewrite K2. }
  unfold get_bits_w. pose proof Rk as (_ & L & _). unfold in_memory in I. pose proof word_4G.
  destruct (r_is_empty r) eqn:E1; [unfold get_bits; now rewrite E1|]. destruct (7 <? n) eqn:E2; [unfold get_bits; now rewrite E1, E2|].
  destruct (8 <=? r_bit r + n); [|reflexivity]. rewrite wadd_ok by lia. now rewrite Nat.eqb_refl.
Qed.
Lemma rsame_slice size dest : rsame (get_slice_w size dest) (get_slice size dest).
Proof.
  intros r R. unfold get_slice_w, get_slice, r_is_aligned. destruct (Nat.eqb_spec (r_bit r) 0) as [H0|H0]; cbn [negb]; [|auto].
  pose proof R as [Rk I]. pose proof Rk as (_ & L & _). unfold in_memory in I. unfold bind at 1, lift, r_remaining_w. rewrite wsub_ok by lia.
  change (length (r_buf r) - r_byte r) with (r_remaining r). destruct (Nat.ltb_spec (r_remaining r) size) as [B|B]; [auto|]. unfold r_remaining in B.
  unfold bind, gets, r_adv_w. rewrite wadd_ok by lia. assert (K : rok (r_adv r size)) by (apply rok_adv; auto; lia).
  destruct (dest <? size); [auto|]. rewrite slice_ok by lia. cbn [r_byte r_buf].
  destruct (Nat.leb_spec (r_byte r) (r_byte r + size)); [|lia]. destruct (Nat.leb_spec (r_byte r + size) (length (r_buf r))); [|lia]. auto.
Qed.
Definition rop_call_w (op : rop) (r : Reader) : res ReadError unit * Reader :=
  let strip {A} (x : res ReadError A * Reader) := (rmap (fun _ => tt) (fst x), snd x) in
  match op with
  | RGetByte => strip (get_byte_w r) | RGetU16 => strip (get_u16_w r) | RGetU24 => strip (get_u24_w r)
  | RGetU32 => strip (get_u32_w r) | RGetBits n => strip (get_bits_w n r) | RGetBit => strip (get_bit_w r)
  | RSkipReserved n => strip (skip_reserved_w n r) | RSkipIgnored n => strip (skip_ignored_w n r)
  | RGetSlice size dest => strip (get_slice_w size dest r)
  end.
Fixpoint rop_run_w (ops : list rop) (r : Reader) : list (res ReadError unit) * Reader :=
  match ops with
  | [] => ([], r)
  | op :: rest => let '(a, r1) := rop_call_w op r in
                  match a with
                  | Panic p => ([Panic p], r1)
                  | _ => let '(l, r2) := rop_run_w rest r1 in (a :: l, r2)
                  end
  end.
Lemma rsame_op op r : rok r -> rop_call_w op r = rop_call op r /\ rok (snd (rop_call op r)).
Proof.
  intros R. destruct op; cbn [rop_call_w rop_call].
  - destruct (rsame_byte r R) as (-> & K & _). auto.
  - destruct (rsame_u16 r R) as (-> & K & _). auto.
  - destruct (rsame_u24 r R) as (-> & K & _). auto.
  - destruct (rsame_u32 r R) as (-> & K & _). auto.
  - destruct (rsame_bits n r R) as (-> & K & _). auto.
  - destruct (rsame_bits 1 r R) as (E & K & _). unfold get_bit_w, get_bit. rewrite E. auto.
  - destruct (rsame_skip_reserved n r R) as (-> & K & _). auto.
  - destruct (rsame_skip_ignored n r R) as (-> & K & _). auto.
  - destruct (rsame_slice size dest r R) as (-> & K & _). auto.
Qed.
Theorem C84_reader ops buf : bytes buf -> in_memory buf -> rop_run_w ops (reader_new buf) = rop_run ops (reader_new buf).
Proof.
  intros HB I. assert (G : forall r, rok r -> rop_run_w ops r = rop_run ops r).
  2: { apply G. split; [|exact I]. unfold reader_ok, reader_new. cbn. repeat split; auto; try lia. }
  induction ops as [|op ops IH]; intros r R; [reflexivity|]. cbn [rop_run_w rop_run].
  destruct (rsame_op op r R) as [-> K]. destruct (rop_call op r) as [a r1]. cbn [snd] in K. now rewrite IH.
Qed.

(** * Transcript *)
Fixpoint t_calls_w (cs : list tcall) (t : Transcript) : list (res BufferFullError unit) * Transcript :=
  match cs with
  | [] => ([], t)
  | CExtend bs :: r => let '(x, t') := t_extend_w bs t in let '(xs, t2) := t_calls_w r t' in (x :: xs, t2)
  | CClear :: r => t_calls_w r (t_clear t)
  end.
(** The sum is computed before it is compared with the capacity, so this needs
    that the slice and the transcript's own array are in memory. *)
Theorem C84_transcript cs : (2 * N.of_nat TRANSCRIPT_SIZE < word_size)%N ->
  Forall (fun c => match c with CExtend bs => in_memory bs | CClear => True end) cs ->
  t_calls_w cs transcript_new = t_calls cs transcript_new.
Proof.
  intros IT F. assert (G : forall t, t_wf t -> t_calls_w cs t = t_calls cs t); [|apply G, t_new_wf].
  induction F as [|c cs Hc F IH]; intros t W; [reflexivity|]. destruct c as [bs|]; cbn [t_calls_w t_calls].
  - assert (E : t_extend_w bs t = t_extend bs t).
    { destruct W as [W1 W2]. unfold in_memory in Hc. unfold t_extend_w, t_extend. rewrite wadd_ok by lia.
      destruct (Nat.ltb_spec (length (t_buf t)) (t_offset t + length bs)); [reflexivity|].
      destruct (Nat.leb_spec (t_offset t) (t_offset t + length bs)); [|lia].
      replace (t_offset t + length bs - t_offset t) with (length bs) by lia. now rewrite Nat.eqb_refl. }
    rewrite E. destruct (t_extend_spec t bs W) as [A B].
    destruct (le_lt_dec (t_len t + length bs) TRANSCRIPT_SIZE) as [L|L].
    + destruct (A L) as (t' & -> & W' & _). now rewrite IH.
    + rewrite (B L). now rewrite IH.
  - apply IH. now apply (t_clear_spec t W).
Qed.

(** * Certificate chains *)
Definition sum_len (l : list (list N)) : nat := fold_left (fun acc i => acc + length i) l 0.
Lemma sum_cons x l : sum_len (x :: l) = length x + sum_len l.
Proof.
  assert (G : forall l a, fold_left (fun acc (i : list N) => acc + length i) l a = a + sum_len l).
  { clear. unfold sum_len. induction l as [|x l IH]; intros a; cbn [fold_left]; [lia|]. rewrite IH, (IH (0 + length x)). lia. }
  unfold sum_len at 1. cbn [fold_left]. rewrite G. lia.
Qed.
Lemma fold_len_w {E} l : forall a, (N.of_nat (a + sum_len l) < word_size)%N ->
  fold_left (fun acc i => rbind acc (fun x => wadd x (length i))) l (@Ok E nat a) = Ok (a + sum_len l).
Proof.
  induction l as [|x l IH]; intros a H.
  - cbn. now rewrite Nat.add_0_r.
  - rewrite sum_cons in *. cbn [fold_left rbind]. rewrite wadd_ok by lia. rewrite IH by lia. f_equal. lia.
Qed.
Lemma chain_length_eq c : chain_length c = 4 + length (cc_root_hash c) + sum_len (cc_intermediates c) + length (cc_leaf_cert c).
Proof. reflexivity. Qed.
Lemma chain_length_fits {E} c : (N.of_nat (chain_length c) < word_size)%N -> @chain_length_w cfg wd E c = Ok (chain_length c).
Proof.
  rewrite chain_length_eq. intros H. unfold chain_length_w. rewrite wadd_ok by lia. cbn [rbind]. rewrite fold_len_w by lia. cbn [rbind].
  rewrite !Nat.add_0_l in *. rewrite wadd_ok by lia. cbn [rbind]. now rewrite wadd_ok by lia.
Qed.
Lemma fold_panic {E} l p : fold_left (fun acc (i : list N) => rbind acc (fun x => wadd x (length i))) l (@Panic E nat p) = Panic p.
Proof. induction l as [|x l IH]; cbn; auto. Qed.
(** Exactly when the sum of the certificates' lengths fits a word is it computed
    correctly.  In memory without overlaps it always fits; slices that overlap
    can add up to more, and then a debug build panics. *)
Theorem C84_chain_length c : overflow_checks = true ->
  (@chain_length_w cfg wd Empty_set c = Ok (chain_length c) <-> (N.of_nat (chain_length c) < word_size)%N) /\
  ((word_size <= N.of_nat (chain_length c))%N -> @chain_length_w cfg wd Empty_set c = Panic POverflow).
Proof.
  intros OC. assert (B : (word_size <= N.of_nat (chain_length c))%N -> @chain_length_w cfg wd Empty_set c = Panic POverflow).
  { intros H. rewrite chain_length_eq in H. unfold chain_length_w.
    assert (W : forall E a b, (N.of_nat (a + b) < word_size)%N /\ @wadd cfg wd E a b = Ok (a + b) \/ (word_size <= N.of_nat (a + b))%N /\ @wadd cfg wd E a b = Panic POverflow).
    { intros E a b. unfold wadd. rewrite OC. destruct (N.ltb_spec (N.of_nat (a + b)) word_size); [left|right]; auto. }
    assert (F : forall l a, (N.of_nat (a + sum_len l) < word_size)%N \/
       fold_left (fun acc i => rbind acc (fun x => wadd x (length i))) l (@Ok Empty_set nat a) = Panic POverflow \/ (word_size <= N.of_nat a)%N).
    { induction l as [|x l IH]; intros a; [destruct (N.lt_ge_cases (N.of_nat a) word_size); [left; cbn; now rewrite Nat.add_0_r|auto]|].
      rewrite sum_cons. cbn [fold_left rbind]. destruct (W Empty_set a (length x)) as [[L ->]|[L ->]].
      - destruct (IH (a + length x)) as [G|[G|G]]; [left; now rewrite Nat.add_assoc|auto|lia].
      - right. left. apply fold_panic. }
    destruct (W Empty_set 4 (length (cc_root_hash c))) as [[L1 ->]|[L1 ->]]; cbn [rbind]; [|reflexivity].
    destruct (F (cc_intermediates c) 0) as [G|[->|G]]; cbn [rbind]; [|reflexivity|pose proof word_4G; lia].
    rewrite fold_len_w by exact G. cbn [rbind]. rewrite Nat.add_0_l in *.
    destruct (W Empty_set (4 + length (cc_root_hash c)) (sum_len (cc_intermediates c))) as [[L2 ->]|[L2 ->]]; cbn [rbind]; [|reflexivity].
    destruct (W Empty_set (4 + length (cc_root_hash c) + sum_len (cc_intermediates c)) (length (cc_leaf_cert c))) as [[L3 _]|[_ ->]]; [lia|reflexivity]. }
  split; [|exact B]. split; [|apply chain_length_fits]. intros H. destruct (N.lt_ge_cases (N.of_nat (chain_length c)) word_size) as [L|L]; [exact L|].
  rewrite (B L) in H. discriminate.
Qed.
(** In a release build it wraps around: the length is computed modulo the word. *)
Theorem C84_chain_length_wraps c : overflow_checks = false ->
  @chain_length_w cfg wd Empty_set c = Ok (N.to_nat (N.of_nat (chain_length c) mod word_size)).
Proof.
  intros OC. pose proof word_4G as W4.
  assert (W : forall a b, @wadd cfg wd Empty_set a b = Ok (N.to_nat ((N.of_nat a + N.of_nat b) mod word_size))).
  { intros a b. unfold wadd. rewrite OC, Nat2N.inj_add. destruct (N.ltb_spec (N.of_nat a + N.of_nat b) word_size); [|reflexivity].
    rewrite N.mod_small by auto. f_equal. lia. }
  assert (F : forall l a, (N.of_nat a < word_size)%N -> fold_left (fun acc i => rbind acc (fun x => wadd x (length i))) l (@Ok Empty_set nat a) =
     Ok (N.to_nat (N.of_nat (a + sum_len l) mod word_size))).
  { induction l as [|x l IH]; intros a Ha; [cbn; rewrite Nat.add_0_r, N.mod_small by auto; f_equal; lia|].
    rewrite sum_cons. cbn [fold_left rbind]. rewrite W, IH by (rewrite N2Nat.id; apply N.mod_lt; lia). do 2 f_equal.
    rewrite !Nat2N.inj_add, N2Nat.id, N.add_mod_idemp_l by lia. f_equal. lia. }
  unfold chain_length_w. rewrite chain_length_eq, W. cbn [rbind]. rewrite F by lia. cbn [rbind]. rewrite W. cbn [rbind]. rewrite W. do 2 f_equal.
  rewrite Nat.add_0_l, !N2Nat.id. rewrite <- N.add_mod by lia. rewrite N.add_mod_idemp_l by lia. f_equal. lia.
Qed.
Theorem C84_chain_write c buf : in_memory buf -> (N.of_nat (chain_length c) < word_size)%N ->
  chain_write_w c (writer_new buf) = chain_write c (writer_new buf).
Proof.
  intros I H. assert (G : wsame (chain_write_w c) (chain_write c)); [|apply G; split; [apply Nat.le_0_l|exact I]].
  unfold chain_write_w. rewrite chain_length_fits by exact H.
  assert (X : forall k : nat -> M Writer WriteCertificateChainError nat, bind (lift (Ok (chain_length c))) k = k (chain_length c)) by reflexivity.
  rewrite X. unfold chain_write. cbn zeta. destruct (65535 <? N.of_nat (chain_length c))%N; [apply wsame_err|].
  apply wsame_bind; [apply wsame_map, wsame_put_u16|intros _]. apply wsame_bind; [apply wsame_map, wsame_put_reserved|intros _].
  apply wsame_bind; [apply wsame_map, wsame_extend|intros _].
  apply wsame_bind; [|intros _; apply wsame_bind; [apply wsame_map, wsame_extend|intros _; apply wsame_off]].
  apply wsame_iter. intros x. apply wsame_bind; [apply wsame_map, wsame_extend|intros _; apply wsame_ret].
Qed.
Lemma rsame_cert_size : rsame read_cert_size_w read_cert_size.
Proof.
  unfold read_cert_size_w, read_cert_size.
  repeat first
  [ apply rsame_ret | apply rsame_err | apply rsame_pnc | apply rsame_map, rsame_byte | apply rsame_bind; [|intros ?]
  | match goal with |- rsame (if ?b then _ else _) _ => destruct b end ].
Qed.
Lemma cert_header r len h r1 : read_cert_size r = (Ok (len, h), r1) -> h <= 4.
Proof.
  intros E. revert E. unfold read_cert_size.
  assert (B : forall A C (m : M Reader ParseCertificateChainError A) (k : A -> M Reader ParseCertificateChainError C) s x s', bind m k s = (Ok x, s') ->
     exists y s1, k y s1 = (Ok x, s')).
  { intros A C m k s x s'. unfold bind. destruct (m s) as [[y|e|p] s1]; try discriminate. eauto. }
  intros E. apply B in E as (b0 & r2 & E). apply B in E as (u & r3 & E). apply B in E as (n & r4 & E). revert E.
  destruct (_ =? 0)%N; [intros [= _ <- _]; lia|]. destruct (n =? 0x81)%N.
  { intros E. apply B in E as (n' & r5 & E). revert E. destruct (_ <? _)%N; [discriminate|]. intros [= _ <- _]. lia. }
  destruct (n =? 0x82)%N; [|discriminate]. intros E. apply B in E as (h1 & r5 & E). apply B in E as (l1 & r6 & E). revert E. cbn zeta.
  destruct (_ <? _)%N; [discriminate|]. intros [= _ <- _]. lia.
Qed.
Definition loop_step (remaining : Reader -> nat) (fin : nat -> nat -> nat) (skip : nat -> M Reader ReadError unit) (cert : M Reader ParseCertificateChainError (nat * nat))
    (next : list (list N) -> M Reader ParseCertificateChainError (list (list N) * nat)) (last : bool) (buf : list N) (acc : list (list N)) (r : Reader) :=
  match cert r with
  | (Ok (len, h), r1) =>
    if remaining r1 <? len then (Err LengthMismatch, r1)
    else if len =? remaining r1 then (Ok (acc, r_byte r), r1)
    else if last then (Err MaxDepthExceeded, r1)
    else if fin len h <=? length buf then
      match map_err PCCRead (skip len) r1 with
      | (Ok _, r2) => next (acc ++ [slice buf (r_byte r) (fin len h)]) r2
      | (Err e, r2) => (Err e, r2) | (Panic p, r2) => (Panic p, r2)
      end
    else (Panic PIndex, r1)
  | (Err e, r1) => (Err e, r1) | (Panic p, r1) => (Panic p, r1)
  end.
Lemma loop_model left buf acc r : chain_loop left buf acc r =
  loop_step r_remaining (fun len h => r_byte r + len + h) skip_ignored read_cert_size (chain_loop (pred left) buf) (left =? 0) buf acc r.
Proof.
  unfold loop_step. destruct left; cbn [chain_loop pred Nat.eqb]; unfold bind, gets; destruct (read_cert_size r) as [[[len h]|e|p] r1]; try reflexivity; cbn beta iota zeta.
  all: destruct (_ <? _); [reflexivity|]; destruct (_ =? _); [reflexivity|]; try reflexivity.
  destruct (_ <=? _); reflexivity.
Qed.
Lemma rsame_loop buf : (N.of_nat (length buf) < 65536)%N -> forall left acc r, rok r -> r_buf r = buf ->
  chain_loop_w left buf acc r = chain_loop left buf acc r.
Proof.
  intros HL. induction left as [|left IH]; intros acc r R Hb; rewrite loop_model; unfold loop_step; cbn [chain_loop_w pred Nat.eqb]; unfold bind, gets.
  all: destruct (rsame_cert_size r R) as (E1 & R1 & B1); rewrite E1; destruct (read_cert_size r) as [[[len h]|e|p] r1] eqn:ES; try reflexivity; cbn [snd] in *; cbn beta iota zeta.
  all: pose proof R1 as [(_ & L1 & _) I1]; pose proof R as [(_ & L0 & _) I0].
  all: unfold lift, r_remaining_w; rewrite wsub_ok by exact L1; change (length (r_buf r1) - r_byte r1) with (r_remaining r1).
  all: destruct (Nat.ltb_spec (r_remaining r1) len) as [Q|Q]; [reflexivity|]; destruct (len =? r_remaining r1); [reflexivity|]; try reflexivity.
  pose proof word_4G. pose proof (cert_header _ _ _ _ ES). unfold r_remaining in *. rewrite B1, Hb in *.
  rewrite (wadd_ok (r_byte r) len) by lia. cbn beta iota. rewrite wadd_ok by lia. cbn beta iota.
  destruct (Nat.leb_spec (r_byte r) (r_byte r + len + h)); [|lia]. cbn [andb].
  destruct (r_byte r + len + h <=? length buf); [|reflexivity].
  unfold ret. cbn beta iota. destruct (rsame_map PCCRead _ _ (rsame_skip_ignored len) r1 R1) as (E2 & R2 & B2).
  rewrite E2. destruct (map_err PCCRead (skip_ignored len) r1) as [[u|e|p] r2]; cbn [snd] in *; try reflexivity. apply IH; congruence.
Qed.
Lemma u16_bound r v r1 : rok r -> get_u16 r = (Ok v, r1) -> (v < 65536)%N.
Proof.
  intros [(HB & _) _]. unfold get_u16, r_slice. destruct (negb _); [discriminate|]. destruct (_ <? _); [discriminate|].
  destruct (_ <=? _); [|discriminate]. intros [= <- _].
  eapply N.lt_le_trans; [apply le_val_bound|].
  - unfold slice. now apply bytes_firstn, bytes_skipn.
  - change 65536%N with (256 ^ 2)%N. apply N.pow_le_mono_r; [discriminate|]. unfold slice. rewrite firstn_length. lia.
Qed.
Theorem C84_chain_parse ds buf : bytes buf -> in_memory buf -> ds <= MAX_DIGEST_SIZE -> (N.of_nat MAX_DIGEST_SIZE < 65536)%N ->
  chain_parse_w buf ds = chain_parse buf ds.
Proof.
  intros HB I HD HM. unfold chain_parse_w, chain_parse, run_parser. pose proof word_4G.
  assert (R0 : rok (reader_new buf)). { split; [|exact I]. unfold reader_ok, reader_new. cbn. repeat split; auto; lia. }
  f_equal. unfold chain_parse_mw, chain_parse_m.
  assert (BB : forall (A C : Type) (m m' : M Reader ParseCertificateChainError A) (k k' : A -> M Reader ParseCertificateChainError C) r, rok r -> r_buf r = buf -> rsame m m' ->
    (forall x r1, rok r1 -> r_buf r1 = buf -> m' r = (Ok x, r1) -> k x r1 = k' x r1) -> bind m k r = bind m' k' r).
  { intros A C m m' k k' r R Hb S K. destruct (S r R) as (E1 & R1 & B1). unfold bind. rewrite E1. destruct (m' r) as [[x|e|p] r1]; cbn [snd] in *; auto. apply K; congruence. }
  apply BB; [exact R0|reflexivity|apply rsame_map, rsame_u16|]. intros len r1 R1 Hb1 EU.
  assert (HU : (len < 65536)%N).
  { unfold map_err in EU. destruct (get_u16 (reader_new buf)) as [[v|e|p] q] eqn:EG; try discriminate. injection EU as <- _. now apply (u16_bound _ _ _ R0 EG). }
  destruct (Nat.eqb_spec (N.to_nat len) (length buf)) as [EL|EL]; cbn [negb]; [|reflexivity].
  assert (HL : (N.of_nat (length buf) < 65536)%N) by lia.
  apply BB; [auto|auto|apply rsame_map, rsame_skip_reserved|]. intros _ r2 R2 Hb2 _.
  assert (GT : forall A C (f : Reader -> A) (k : A -> M Reader ParseCertificateChainError C) r, bind (gets f) k r = k (f r) r) by reflexivity.
  rewrite !GT. clear GT.
  apply BB; [auto|auto|apply rsame_map, rsame_skip_ignored|]. intros _ r3 R3 Hb3 _.
  pose proof R2 as [(_ & L2 & _) _]. rewrite Hb2 in L2. unfold bind at 1, lift at 1. rewrite wadd_ok by lia. cbn beta iota.
  destruct (Nat.leb_spec (r_byte r2) (r_byte r2 + ds)); [|lia]. cbn [andb].
  apply BB; [auto|auto|destruct (_ <=? _); [apply rsame_ret|apply rsame_pnc]|]. intros _ r4 R4 Hb4 _. cbn zeta.
  unfold bind at 1. rewrite (rsame_loop buf HL MAX_CERT_CHAIN_DEPTH [] r4 R4 Hb4). reflexivity.
Qed.

(** * Sizes of opaque data, measurement records and signatures *)
Lemma oe_size_fits {E} e : (N.of_nat (length (oe_data e)) < 65536)%N -> @oe_serialized_size_w cfg wd E e = Ok (oe_serialized_size e) /\ (N.of_nat (oe_serialized_size e) < 65600)%N.
Proof.
  intros H. pose proof word_4G. assert (V : (vendor_id_len (oe_registry e) <= 4)%N) by (destruct (oe_registry e); cbn; lia).
  assert (P : forall n, oe_padding n <= 3).
  { intros n. unfold oe_padding. pose proof (Nat.mod_upper_bound n 4). destruct (Nat.eqb_spec (n mod 4) 0); lia. }
  unfold oe_serialized_size_w, oe_serialized_size. set (v := N.to_nat (vendor_id_len (oe_registry e))). assert (v <= 4) by lia. clearbody v. cbv zeta.
  pose proof (P (4 + v + length (oe_data e))).
  rewrite wadd_ok by lia. cbn [rbind]. rewrite wadd_ok by lia. cbn [rbind].
  set (pd := oe_padding (4 + v + length (oe_data e))) in *. clearbody pd. rewrite wadd_ok by lia. split; [reflexivity|lia].
Qed.
Definition sum_oe (d : OpaqueData) : nat := fold_left (fun acc e => acc + oe_serialized_size e) d 0.
Lemma sum_oe_cons x l : sum_oe (x :: l) = oe_serialized_size x + sum_oe l.
Proof.
  assert (G : forall l a, fold_left (fun acc e => acc + oe_serialized_size e) l a = a + sum_oe l).
  { clear. unfold sum_oe. induction l as [|x l IH]; intros a; cbn [fold_left]; [lia|]. rewrite IH, (IH (0 + oe_serialized_size x)). lia. }
  unfold sum_oe at 1. cbn [fold_left]. rewrite G. lia.
Qed.
(** Opaque data: at most 255 elements (u8) of at most 65535 bytes (u16). *)
Theorem C84_opaque_size d : length d <= 255 -> Forall (fun e => (N.of_nat (length (oe_data e)) < 65536)%N) d ->
  @od_serialized_size_w cfg wd Empty_set d = Ok (od_serialized_size d).
Proof.
  intros L F. pose proof word_4G as W4. assert (S : (N.of_nat (sum_oe d) <= N.of_nat (length d) * 65600)%N).
  { clear L. induction F as [|e d He F IH]; [cbn; lia|]. rewrite sum_oe_cons. cbn [length].
    destruct (@oe_size_fits Empty_set e He) as [_ B]. rewrite Nat2N.inj_add, Nat2N.inj_succ, N.mul_succ_l. lia. }
  assert (S' : (N.of_nat (sum_oe d) <= 16728000)%N) by lia. clear S L.
  change (od_serialized_size d) with (4 + sum_oe d). unfold od_serialized_size_w.
  assert (G : forall a, (N.of_nat (a + sum_oe d) < word_size)%N ->
    fold_left (fun acc e => rbind acc (fun x => rbind (oe_serialized_size_w e) (wadd x))) d (@Ok Empty_set nat a) = Ok (a + sum_oe d)).
  { clear S'. induction F as [|e d He F IH]; intros a Ha; [cbn; now rewrite Nat.add_0_r|]. rewrite sum_oe_cons in *. cbn [fold_left rbind].
    destruct (@oe_size_fits Empty_set e He) as [-> B]. cbn [rbind]. rewrite wadd_ok by lia. rewrite IH by lia. f_equal. lia. }
  rewrite G by lia. cbn [rbind]. rewrite Nat.add_0_l. apply wadd_ok. lia.
Qed.
Definition block_len (o : option MeasurementBlock) : nat := match o with Some b => mv_len (dm_value (mb_measurement b)) | None => 0 end.
Definition sum_blocks (l : list (option MeasurementBlock)) : nat := fold_right (fun o a => 7 + block_len o + a) 0 l.
(** Measurement records: the values and seven bytes per block add up to less than
    a word, as they do when the array of blocks is in memory. *)
Theorem C84_record_size b : (N.of_nat (sum_blocks (mbs_blocks b)) < word_size)%N ->
  @mbs_serialized_size_w cfg wd Empty_set b = mbs_serialized_size b.
Proof.
  intros H. unfold mbs_serialized_size_w, mbs_serialized_size. destruct (mbs_len b <=? length (mbs_blocks b)); [|reflexivity].
  assert (P : sum_blocks (firstn (mbs_len b) (mbs_blocks b)) <= sum_blocks (mbs_blocks b)).
  { clear H. generalize (mbs_len b). induction (mbs_blocks b) as [|o l IH]; intros n; [rewrite firstn_nil; lia|]. destruct n; [apply Nat.le_0_l|]. specialize (IH n). cbn [firstn sum_blocks fold_right]. fold (sum_blocks (firstn n l)) (sum_blocks l). lia. }
  assert (G : forall l a, (N.of_nat (a + sum_blocks l) < word_size)%N ->
    fold_left (fun acc o => rbind acc (fun a => match o with Some x => rbind (mb_serialized_size_w x) (wadd a) | None => Panic PUnwrap end)) l (@Ok Empty_set nat a) =
    fold_left (fun acc o => rbind acc (fun a => match o with Some x => Ok (a + mb_serialized_size x) | None => Panic PUnwrap end)) l (Ok a)).
  { clear H P. induction l as [|o l IH]; intros a Ha; [reflexivity|]. cbn [fold_left rbind sum_blocks fold_right] in *. fold (sum_blocks l) in Ha.
    destruct o as [x|]; cbn [block_len] in Ha.
    - unfold mb_serialized_size_w, mb_serialized_size, dm_serialized_size. rewrite wadd_ok by lia. cbn [rbind]. rewrite wadd_ok by lia. cbn [rbind].
      rewrite wadd_ok by lia. apply IH. lia.
    - clear. induction l as [|o l IH]; [reflexivity|exact IH]. }
  apply G. lia.
Qed.
(** The lengths in the DER form of a signature of two halves. *)
Theorem C84_signature_lengths i j : in_memory (i ++ j) ->
  @get_start_and_length_w cfg wd Empty_set i = get_start_and_length i /\
  @get_start_and_length_w cfg wd Empty_set j = get_start_and_length j /\
  (forall sr r_len ss s_len, @get_start_and_length Empty_set i = Ok (sr, r_len) -> @get_start_and_length Empty_set j = Ok (ss, s_len) ->
    @sig_len_w cfg wd Empty_set r_len s_len = Ok (2 + r_len + s_len + der_length r_len + der_length s_len)).
Proof.
  unfold in_memory. rewrite app_length. intros I. pose proof word_4G.
  assert (P : forall l p, @pad_of Empty_set l = Ok p -> p <= 1).
  { intros l p. unfold pad_of. destruct l as [|b l]; [discriminate|]. destruct (_ =? _)%N; intros [= <-]; cbn; lia. }
  assert (F : forall l n, first_nonzero l = Some n -> n <= length l).
  { induction l as [|b l IH]; intros n; [discriminate|]. cbn. destruct (b =? 0)%N; [|intros [= <-]; lia].
    destruct (first_nonzero l) as [m|]; [|discriminate]. intros [= <-]. specialize (IH m eq_refl). lia. }
  assert (G : forall l, (2 * N.of_nat (length l) < word_size)%N -> @get_start_and_length_w cfg wd Empty_set l = get_start_and_length l).
  { intros l L. unfold get_start_and_length_w, get_start_and_length. destruct (first_nonzero l) as [n|] eqn:EF; [|reflexivity].
    specialize (F _ _ EF). destruct (pad_of (skipn n l)) as [pd|e|p] eqn:EP; [|destruct e|reflexivity]. specialize (P _ _ EP). cbn [rbind].
    rewrite wsub_ok by lia. cbn [rbind]. rewrite wadd_ok by lia. reflexivity. }
  split; [apply G; lia|]. split; [apply G; lia|].
  assert (B : forall l s n, @get_start_and_length Empty_set l = Ok (s, n) -> n <= length l + 1).
  { intros l s n. unfold get_start_and_length. destruct (first_nonzero l) as [m|] eqn:EF; [|discriminate]. specialize (F _ _ EF).
    destruct (pad_of (skipn m l)) as [pd|e|p] eqn:EP; [|destruct e|discriminate]. specialize (P _ _ EP). cbn [rbind]. intros [= <- <-]. lia. }
  assert (D : forall n, der_length n <= 3) by (intros n; unfold der_length; destruct (_ <? 128); [lia|]; destruct (_ <? 256); lia).
  intros sr rl ss sl Hr Hs. apply B in Hr, Hs. pose proof (D rl). pose proof (D sl). unfold sig_len_w.
  rewrite wadd_ok by lia. cbn [rbind]. rewrite wadd_ok by lia. cbn [rbind]. rewrite wadd_ok by lia. cbn [rbind]. now rewrite wadd_ok by lia.
Qed.
End PropWord.

(** On a 32-bit machine: a real buffer, and certificates that share memory. *)
#[local] Existing Instance sample_cfg.
Definition word32 : Word := {| word_bits := 32; word_large := N.le_refl 32 |}.
Example C84_example :
  @in_memory word32 N (repeat 0%N 1000) /\
  @t_extend_w sample_cfg word32 [1; 2; 3]%N transcript_new = t_extend [1; 2; 3]%N transcript_new /\
  @chain_length_w sample_cfg word32 Empty_set (mkChain [1; 2]%N [3]%N [[4; 5]; [6]]%N) = Ok 10.
Proof. split; [unfold in_memory; vm_compute; reflexivity|]. split; vm_compute; reflexivity. Qed.
(** Four slices of 2^30 bytes each: the sum does not fit. *)
Example C84_shared_memory (cert : list N) : N.of_nat (length cert) = (2 ^ 30)%N ->
  @chain_length_w sample_cfg word32 Empty_set (mkChain [] cert [cert; cert; cert]) = Panic POverflow.
Proof.
  intros H. apply (@C84_chain_length sample_cfg word32); [reflexivity|]. unfold chain_length, word_size. cbn [cc_root_hash cc_intermediates cc_leaf_cert length fold_left word_bits word32].
  change (2 ^ 32)%N with (2 ^ 30 + 2 ^ 30 + 2 ^ 30 + 2 ^ 30)%N. rewrite <- H. lia.
Qed.
Print Assumptions C84_writer.
Print Assumptions C84_chain_parse.
