(** Reader::get_bits reads the buffer as one little-endian bit string. *)
From Verif Require Import Base BaseLemmas Config Encoding MsgCommon ReaderLogic.

Lemma testbit_byte_high b i : is_byte b -> (8 <= i)%N -> N.testbit b i = false.
Proof.
  unfold is_byte. intros H Hi. destruct (N.eq_dec b 0) as [->|]; [apply N.bits_0|].
  apply N.bits_above_log2. apply N.log2_lt_pow2; [lia|].
  eapply N.lt_le_trans; [exact H|]. change 256%N with (2 ^ 8)%N. apply N.pow_le_mono_r; lia.
Qed.

Lemma testbit_small b k i : (b < 2 ^ k)%N -> (k <= i)%N -> N.testbit b i = false.
Proof.
  intros H Hi. destruct (N.eq_dec b 0) as [->|]; [apply N.bits_0|].
  apply N.bits_above_log2. apply N.log2_lt_pow2; [lia|].
  eapply N.lt_le_trans; [exact H|]. apply N.pow_le_mono_r; lia.
Qed.

Lemma testbit_le_val buf k b i : bytes buf -> nth_error buf k = Some b -> (i < 8)%N ->
  N.testbit (le_val buf) (8 * N.of_nat k + i) = N.testbit b i.
Proof.
  intros H. revert k. induction H as [|x l Hx Hl IH]; intros [|k] Hk Hi; try discriminate; cbn [le_val].
  - injection Hk as ->. change (N.of_nat 0) with 0%N. rewrite N.mul_0_r, N.add_0_l.
    change 256%N with (2 ^ 8)%N. rewrite <- (lor_shift_add b (le_val l) 8) by exact Hx.
    rewrite N.lor_spec, N.shiftl_spec_low by lia. apply orb_false_r.
  - simpl in Hk. change 256%N with (2 ^ 8)%N. rewrite <- (lor_shift_add x (le_val l) 8) by exact Hx.
    rewrite N.lor_spec, (testbit_byte_high x) by (auto; lia). rewrite N.shiftl_spec_high' by lia.
    simpl. rewrite <- (IH k Hk Hi). f_equal. lia.
Qed.

Section Bits.
Context {cfg : Config}.

(** What a successful get_bits(n) at bit [j] of byte [k] returns. *)
Definition bits_at (buf : list N) (p n : nat) : N :=
  ((le_val buf / 2 ^ N.of_nat p) mod 2 ^ N.of_nat n)%N.

Lemma testbit_bits_at buf p n i :
  N.testbit (bits_at buf p n) i = if (i <? N.of_nat n)%N then N.testbit (le_val buf) (N.of_nat p + i) else false.
Proof.
  unfold bits_at. destruct (N.ltb_spec i (N.of_nat n)) as [H|H].
  - rewrite N.mod_pow2_bits_low by auto. rewrite N.div_pow2_bits. f_equal. lia.
  - now rewrite N.mod_pow2_bits_high.
Qed.

Lemma testbit_shl8 b k i : N.testbit (N.shiftl b (N.of_nat k) mod 256) i =
  if (i <? 8)%N then if (i <? N.of_nat k)%N then false else N.testbit b (i - N.of_nat k) else false.
Proof.
  change 256%N with (2 ^ 8)%N. destruct (N.ltb_spec i 8).
  - rewrite N.mod_pow2_bits_low by auto. destruct (N.ltb_spec i (N.of_nat k)).
    + now apply N.shiftl_spec_low.
    + now apply N.shiftl_spec_high'.
  - now apply N.mod_pow2_bits_high.
Qed.

Lemma get_bits_ok r n :
  bytes (r_buf r) -> 1 <= n <= 7 -> r_bit r < 8 -> r_byte r < length (r_buf r) ->
  let p := 8 * r_byte r + r_bit r in
  (p + n <= 8 * length (r_buf r) ->
   get_bits n r = (Ok (bits_at (r_buf r) p n), mkReader (r_buf r) ((p + n) / 8) ((p + n) mod 8))) /\
  (8 * length (r_buf r) < p + n -> get_bits n r = (Err BufferEmpty, r)).
Proof.
  destruct r as [buf k j]. unfold get_bits, r_is_empty, r_index. cbn [r_buf r_byte r_bit]. cbv zeta.
  intros Hb Hn Hj Hk.
  destruct (Nat.eqb_spec (length buf) k); [lia|].
  destruct (Nat.ltb_spec 7 n); [lia|].
  destruct (nth_error buf k) as [b0|] eqn:E0; [|apply nth_error_None in E0; lia].
  assert (B0 : is_byte b0) by (eapply bytes_nth; eauto).
  destruct (Nat.leb_spec 8 (j + n)) as [L|L].
  1: (destruct (Nat.eqb_spec (j + n - 8) 0) as [Z|Z];
    [cbn [negb]; rewrite andb_false_r; unfold shr8, shamt8; destruct (Nat.ltb_spec j 8); [|lia];
     cbn [rbind rmap]; split; [|lia]; intros _; f_equal;
     [f_equal; apply N.bits_inj; intros i; rewrite testbit_bits_at, N.shiftr_spec';
      destruct (N.ltb_spec i (N.of_nat n));
      [replace (N.of_nat (8 * k + j) + i)%N with (8 * N.of_nat k + (i + N.of_nat j))%N by lia;
       now rewrite (testbit_le_val buf k b0) by (auto; lia)
      |apply testbit_byte_high; auto; lia]
     |f_equal; [replace (8 * k + j + n) with ((k + 1) * 8) by lia; now rewrite Nat.div_mul
               |replace (8 * k + j + n) with ((k + 1) * 8) by lia; rewrite Nat.mod_mul by lia; lia]]
    |cbn [negb]; rewrite andb_true_r]).
  1: (destruct (Nat.eqb_spec (k + 1) (length buf));
    [split; [lia|reflexivity]|]; split; [|lia]; intros _;
    destruct (nth_error buf (k + 1)) as [b1|] eqn:E1; [|apply nth_error_None in E1; lia];
    assert (B1 : is_byte b1) by (eapply bytes_nth; eauto);
    unfold shr8, shl8, shamt8, sub8;
    destruct (Nat.ltb_spec j 8); [|lia]; cbn [rbind rmap];
    destruct (Nat.leb_spec j 8); [|lia]; cbn [rbind rmap];
    destruct (Nat.leb_spec (j + n - 8) 8); [|lia]; cbn [rbind rmap];
    destruct (Nat.leb_spec (8 - j) (8 - (j + n - 8))); [|lia]; cbn [rbind rmap];
    destruct (Nat.ltb_spec (8 - (j + n - 8)) 8); [|lia]; cbn [rbind rmap];
    destruct (Nat.ltb_spec (8 - (j + n - 8) - (8 - j)) 8); [|lia]; cbn [rbind rmap];
    f_equal;
    [f_equal; apply N.bits_inj; intros i; rewrite N.lor_spec, testbit_bits_at, !N.shiftr_spec', testbit_shl8;
     destruct (N.ltb_spec i (N.of_nat n));
     [destruct (N.ltb_spec (i + N.of_nat j) 8);
      [replace (N.of_nat (8 * k + j) + i)%N with (8 * N.of_nat k + (i + N.of_nat j))%N by lia;
       rewrite (testbit_le_val buf k b0) by (auto; lia);
       destruct (N.ltb_spec (i + N.of_nat (8 - (j + n - 8) - (8 - j))) 8); [|lia];
       destruct (N.ltb_spec (i + N.of_nat (8 - (j + n - 8) - (8 - j))) (N.of_nat (8 - (j + n - 8)))); [|lia];
       apply orb_false_r
      |replace (N.of_nat (8 * k + j) + i)%N with (8 * N.of_nat (k + 1) + (i + N.of_nat j - 8))%N by lia;
       rewrite (testbit_le_val buf (k + 1) b1) by (auto; lia);
       rewrite (testbit_byte_high b0) by (auto; lia); rewrite orb_false_l;
       destruct (N.ltb_spec (i + N.of_nat (8 - (j + n - 8) - (8 - j))) 8); [|lia];
       destruct (N.ltb_spec (i + N.of_nat (8 - (j + n - 8) - (8 - j))) (N.of_nat (8 - (j + n - 8)))); [lia|];
       f_equal; lia]
     |rewrite (testbit_byte_high b0) by (auto; lia);
      destruct (N.ltb_spec (i + N.of_nat (8 - (j + n - 8) - (8 - j))) 8); [lia|]; reflexivity]
    |f_equal;
     [replace (8 * k + j + n) with ((k + 1) * 8 + (j + n - 8)) by lia; rewrite Nat.div_add_l by lia;
      rewrite (Nat.div_small (j + n - 8)) by lia; lia
     |replace (8 * k + j + n) with (j + n - 8 + (k + 1) * 8) by lia; rewrite Nat.mod_add by lia;
      rewrite Nat.mod_small; lia]]).
  all: split; [|lia]; intros _;
    unfold shr8, shl8, shamt8, sub8;
    destruct (Nat.leb_spec (j + n) 8); [|lia]; cbn [rbind rmap];
    destruct (Nat.ltb_spec (8 - (j + n)) 8); [|lia]; cbn [rbind rmap];
    destruct (Nat.leb_spec j (j + n)); [|lia]; cbn [rbind rmap];
    destruct (Nat.leb_spec (j + n - j) 8); [|lia]; cbn [rbind rmap];
    destruct (Nat.ltb_spec (8 - (j + n - j)) 8); [|lia]; cbn [rbind rmap];
    f_equal;
    [f_equal; apply N.bits_inj; intros i; rewrite testbit_bits_at, N.shiftr_spec', testbit_shl8;
     destruct (N.ltb_spec i (N.of_nat n));
     [replace (N.of_nat (8 * k + j) + i)%N with (8 * N.of_nat k + (i + N.of_nat j))%N by lia;
      rewrite (testbit_le_val buf k b0) by (auto; lia);
      destruct (N.ltb_spec (i + N.of_nat (8 - (j + n - j))) 8); [|lia];
      destruct (N.ltb_spec (i + N.of_nat (8 - (j + n - j))) (N.of_nat (8 - (j + n)))); [lia|];
      f_equal; lia
     |destruct (N.ltb_spec (i + N.of_nat (8 - (j + n - j))) 8); [lia|]; reflexivity]
    |f_equal;
     [replace (8 * k + j + n) with (k * 8 + (j + n)) by lia; rewrite Nat.div_add_l by lia;
      rewrite (Nat.div_small (j + n)) by lia; lia
     |replace (8 * k + j + n) with (j + n + k * 8) by lia; rewrite Nat.mod_add by lia;
      rewrite Nat.mod_small; lia]].
Qed.

(** Bits [j..j+n) of a byte. *)
Definition field (b : N) (j n : nat) : N := ((b / 2 ^ N.of_nat j) mod 2 ^ N.of_nat n)%N.

Lemma bits_at_field pre b t j n :
  bytes (b :: t) -> bytes pre -> j + n <= 8 -> bits_at (pre ++ b :: t) (8 * length pre + j) n = field b j n.
Proof.
  intros Hb Hp H. apply N.bits_inj. intros i. rewrite testbit_bits_at. unfold field.
  destruct (N.ltb_spec i (N.of_nat n)).
  - rewrite N.mod_pow2_bits_low by auto. rewrite N.div_pow2_bits.
    replace (N.of_nat (8 * length pre + j) + i)%N with (8 * N.of_nat (length pre) + (i + N.of_nat j))%N by lia.
    apply testbit_le_val; [now apply bytes_app| |lia]. apply nth_error_mid.
  - now rewrite N.mod_pow2_bits_high.
Qed.

(** The consumed prefix is irrelevant: only [inp] needs to hold bytes. *)
Lemma get_bits_local n buf buf' k j : (forall i, k <= i -> nth_error buf i = nth_error buf' i) ->
  length buf = length buf' ->
  get_bits n (mkReader buf k j) =
  match get_bits n (mkReader buf' k j) with (r, s) => (r, mkReader buf (r_byte s) (r_bit s)) end.
Proof.
  intros Hn Hl. unfold get_bits, r_is_empty, r_index. cbn [r_buf r_byte r_bit]. rewrite Hl.
  rewrite (Hn k) by lia. rewrite (Hn (k + 1)) by lia.
  repeat match goal with
         | |- context [if ?c then _ else _] => destruct c
         | |- context [match ?c with Ok _ => _ | Err _ => _ | Panic _ => _ end] => destruct c
         | |- context [match ?c with Some _ => _ | None => _ end] => destruct c
         end; reflexivity.
Qed.

Lemma get_bits_rd pre b t j n : bytes (b :: t) -> j < 8 -> 1 <= n <= 7 -> j + n <= 8 ->
  get_bits n (rd pre (b :: t) j) =
  (Ok (field b j n), if j + n <? 8 then rd pre (b :: t) (j + n) else rd (pre ++ [b]) t 0).
Proof.
  intros Hb Hj Hn H. unfold rd at 1.
  rewrite (get_bits_local n _ (repeat 0%N (length pre) ++ b :: t)).
  - assert (Hz : bytes (repeat 0%N (length pre))) by (apply bytes_repeat; unfold is_byte; lia).
    destruct (get_bits_ok (mkReader (repeat 0%N (length pre) ++ b :: t) (length pre) j) n) as [G _];
      cbn [r_buf r_byte r_bit] in *; auto.
    + now apply bytes_app.
    + rewrite app_length, repeat_length. simpl. lia.
    + rewrite G by (rewrite app_length, repeat_length; simpl length; lia).
      cbn [r_byte r_bit].
      pose proof (bits_at_field (repeat 0%N (length pre)) b t j n Hb Hz H) as B.
      rewrite repeat_length in B. rewrite B. f_equal.
      destruct (Nat.ltb_spec (j + n) 8).
      * unfold rd. f_equal.
        -- replace (8 * length pre + j + n) with (length pre * 8 + (j + n)) by lia.
           rewrite Nat.div_add_l by lia. rewrite Nat.div_small by lia. lia.
        -- replace (8 * length pre + j + n) with (j + n + length pre * 8) by lia.
           rewrite Nat.mod_add by lia. rewrite Nat.mod_small; lia.
      * unfold rd. rewrite app_length, <- app_assoc. simpl length. f_equal.
        -- replace (8 * length pre + j + n) with ((length pre + 1) * 8) by lia. now rewrite Nat.div_mul.
        -- replace (8 * length pre + j + n) with ((length pre + 1) * 8) by lia. now rewrite Nat.mod_mul.
  - intros i Hi. rewrite !nth_error_app2; rewrite ?repeat_length; auto.
  - now rewrite !app_length, repeat_length.
Qed.

Lemma field_bound b j n : (field b j n < 2 ^ N.of_nat n)%N.
Proof. apply N.mod_lt. apply N.pow_nonzero. lia. Qed.

Lemma get_bits_nil pre n : get_bits n (rd pre [] 0) = (Err BufferEmpty, rd pre [] 0).
Proof. unfold get_bits, r_is_empty, rd. simpl. now rewrite app_nil_r, Nat.eqb_refl. Qed.

(** A field that ends inside the byte. *)
Lemma rspec_bits_bind {E B} j n (f : ReadError -> E) (k : N -> M Reader E B) Q QQ :
  1 <= n <= 7 -> j + n < 8 ->
  (forall v, (v < 2 ^ N.of_nat n)%N -> rspec (j + n) (k v) (Q v) (QQ v)) ->
  rspec j (bind (map_err f (get_bits n)) k)
        (fun bs c => exists b t, bs = b :: t /\ Q (field b j n) bs c)
        (fun inp => exists b t, inp = b :: t /\ QQ (field b j n) inp).
Proof.
  intros Hn Hj H pre inp Hb Hne. unfold bind, map_err. destruct inp as [|b t].
  - destruct j; [|exfalso; apply Hne; auto; lia]. rewrite get_bits_nil. rsplit.
    + intros bs rest a E1 (b & t & -> & _). discriminate.
    + intros a r [=].
    + intros (p & r & [=]).
    + intros (b & t & [=] & _).
  - rewrite get_bits_rd by (auto; lia). destruct (Nat.ltb_spec (j + n) 8); [|lia].
    destruct (H (field b j n) (field_bound b j n) pre (b :: t) Hb) as (H1 & H2 & H3); [discriminate|].
    rsplit.
    + intros bs rest a E1 (b' & t' & -> & Hq). injection E1 as -> E1. apply H1; auto. simpl. now rewrite E1.
    + intros a r Hr. destruct (H2 a r Hr) as (bs & rest & E1 & Hq & Hn1). exists bs, rest. split; auto.
      destruct bs as [|b' t']; [exfalso; apply Hn1; auto; lia|].
      injection E1 as -> E1. split; [eauto|discriminate].
    + intros Hp. exists b, t. split; auto. now apply H3.
    + intros (b' & t' & [= <- <-] & Hq). now apply H3.
Qed.
Lemma rspec_bits_bind' {E B} j n (f : ReadError -> E) (k : N -> M Reader E B) Q :
  1 <= n <= 7 -> j + n < 8 ->
  (forall v, (v < 2 ^ N.of_nat n)%N -> rspec (j + n) (k v) (Q v) never) ->
  rspec j (bind (map_err f (get_bits n)) k)
        (fun bs c => exists b t, bs = b :: t /\ Q (field b j n) bs c) never.
Proof.
  intros H1 H2 H3. eapply rspec_weaken; [exact (rspec_bits_bind j n f k Q (fun _ => never) H1 H2 H3)|reflexivity|].
  unfold never. firstorder.
Qed.

(** A field that ends at the end of the byte. *)
Lemma rspec_bits_end j n : 1 <= n <= 7 -> j + n = 8 ->
  rspec j (get_bits n) (fun bs v => exists b, bs = [b] /\ v = field b j n) never.
Proof.
  intros Hn Hj pre inp Hb Hne. unfold never. destruct inp as [|b t].
  - exfalso. apply Hne; auto; lia.
  - rewrite get_bits_rd by (auto; lia). destruct (Nat.ltb_spec (j + n) 8); [lia|]. rsplit.
    + intros bs rest a E1 (b' & -> & ->). injection E1 as -> ->. reflexivity.
    + intros a r [= <- <-]. exists [b], t. repeat split; [eauto|discriminate].
    + intros (p & r & [=]).
    + tauto.
Qed.
End Bits.
