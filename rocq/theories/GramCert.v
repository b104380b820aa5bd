(** Writers and parsers of GET_CERTIFICATE, CERTIFICATE and certificate chains. *)
From Verif Require Import Base BaseLemmas Config Encoding MsgCommon MsgCertificates
     WriterLogic ReaderLogic ReaderBits ReaderLoops SpecWire GramBasic.

Section Gram.
Context {cfg : Config}.

(** ** GET_CERTIFICATE *)
Lemma emits_get_certificate m o :
  let bs := get_certificate_layout (gcert_slot m) (gcert_offset m) (gcert_length m) in
  emits o (get_certificate_write_body m) BufferFull bs (o + length bs).
Proof. cbv zeta. unfold get_certificate_write_body. eapply emits_eq; [emits_go|reflexivity|simpl; lia]. Qed.
Lemma rspec_get_certificate :
  rspec 0 get_certificate_parse
    (fun bs m => (gcert_offset m < 65536)%N /\ (gcert_length m < 65536)%N /\
                 bs = get_certificate_layout (gcert_slot m) (gcert_offset m) (gcert_length m)) never.
Proof.
  unfold get_certificate_parse. eapply rspec_weaken; [rgo| |reflexivity].
  intros bs m Hb; cbv beta. split.
  - intros; gfwd. split; auto.
  - destruct m as [s o l]; simpl. intros (H1 & H2 & ->). unfold get_certificate_layout. gnil. gback; auto.
Qed.

(** ** CERTIFICATE *)
Lemma emits_certificate m o portion :
  firstn (length portion) (cert_chain m) = portion -> cert_portion_length m = N.of_nat (length portion) ->
  let bs := certificate_layout (cert_slot m) portion (cert_remainder_length m) in
  emits o (certificate_write_body m) BufferFull bs (o + length bs).
Proof.
  intros H1 H2. cbv zeta. unfold certificate_write_body. rewrite H2, Nat2N.id, H1.
  assert (L : length portion <= length (cert_chain m)).
  { apply (f_equal (@length N)) in H1. rewrite firstn_length in H1. lia. }
  destruct (Nat.ltb_spec (length (cert_chain m)) (length portion)); [lia|].
  eapply emits_eq; [emits_go|reflexivity|]. unfold certificate_layout. rewrite !app_length. simpl. lia.
Qed.
Lemma rspec_certificate :
  rspec 0 certificate_parse
    (fun bs m => exists portion, certificate_has m portion /\
       bs = certificate_layout (cert_slot m) portion (cert_remainder_length m)) never.
Proof.
  unfold certificate_parse. eapply rspec_weaken; [rgo; apply rspec_get_slice'| |reflexivity].
  { bools. auto. }
  intros bs m Hb; cbv beta. split.
  - intros; gfwd. bools. match goal with H : length ?x = N.to_nat ?n |- _ => exists x;
      assert (n = N.of_nat (length x)) by lia; subst n end.
    unfold certificate_has, certificate_layout, zeros; simpl. repeat split; auto; try lia.
    now rewrite app_nil_r.
  - destruct m as [s pl rl ch]. intros (portion & (H1 & H2 & H3 & H4 & H5) & ->). simpl in *. subst pl ch.
    unfold certificate_layout. gnil. gback; auto.
    + rewrite Nat2N.id. apply Nat.ltb_ge. lia.
    + lia.
Qed.

(** ** Certificate chains *)
Lemma der_len_cases n : (N.of_nat n < 65536)%N ->
  der_len n = [N.of_nat n] /\ n < 128 \/ der_len n = [0x81; N.of_nat n]%N /\ 128 <= n < 256 \/
  exists h l, der_len n = [0x82; h; l]%N /\ 256 <= n /\ N.of_nat n = (256 * h + l)%N /\ (h < 256)%N /\ (l < 256)%N.
Proof.
  intros H. unfold der_len. destruct (Nat.ltb_spec n 128); [auto|].
  destruct (Nat.ltb_spec n 256); [auto|]. right; right.
  exists (N.of_nat n / 256)%N, (N.of_nat n mod 256)%N. repeat split; auto.
  - apply N.div_mod. lia.
  - apply N.div_lt_upper_bound; lia.
  - apply N.mod_lt. lia.
Qed.
Lemma bit7 n : is_byte n -> (N.land n 0x80 =? 0)%N = (n <? 128)%N.
Proof.
  intros H. assert (F : forallb (fun k => Bool.eqb (N.land (N.of_nat k) 0x80 =? 0)%N (N.of_nat k <? 128)%N) (seq 0 256) = true)
    by (vm_compute; reflexivity).
  rewrite forallb_forall in F. specialize (F (N.to_nat n)). rewrite N2Nat.id in F.
  unfold is_byte in H. apply Bool.eqb_prop, F, in_seq. lia.
Qed.
Lemma shl8_lor h l : (l < 256)%N -> N.lor (N.shiftl h 8) l = (256 * h + l)%N.
Proof. intros. rewrite N.lor_comm, (lor_shift_add l h 8) by exact H. change (2 ^ 8)%N with 256%N. lia. Qed.

Lemma rspec_read_cert_size :
  rspec 0 read_cert_size
    (fun bs r => bs = 0x30%N :: der_len (fst r) /\ snd r = length bs /\ (N.of_nat (fst r) < 65536)%N)
    (fun inp => exists b rest, inp = b :: rest /\ b <> 0x30%N).
Proof.
  unfold read_cert_size. eapply rspec_weaken.
  - eapply rspec_bind with (QQ := fun b inp => b <> 0x30%N)
      (Q := fun b bs r => b = 0x30%N /\ bs = der_len (fst r) /\ snd r = S (length bs) /\ (N.of_nat (fst r) < 65536)%N);
      [apply rspec_map_err, rspec_get_byte|].
    intros b0 bs0 _ _. destruct (N.eqb_spec b0 0x30) as [->|Hb0].
    + eapply rspec_ext with (m := n <- map_err PCCRead get_byte ;;
        if (N.land n 0x80 =? 0)%N then ret (N.to_nat n, 2)
        else if (n =? 0x81)%N then
          n <- map_err PCCRead get_byte ;;
          if (n <? 128)%N then err BadDerEncoding else ret (N.to_nat n, 3)
        else if (n =? 0x82)%N then
          high <- map_err PCCRead get_byte ;;
          low <- map_err PCCRead get_byte ;;
          let n := N.lor (N.shiftl high 8) low in
          if (n <? 256)%N then err BadDerEncoding else ret (N.to_nat n, 4)
        else err BadDerEncoding); [intros; reflexivity|].
      eapply rspec_weaken with (PP := never).
      * eapply rspec_bind' with (Q := fun n bs r => n :: bs = der_len (fst r) /\ snd r = 2 + length bs /\ (N.of_nat (fst r) < 65536)%N);
          [apply rspec_map_err, rspec_get_byte|].
        intros n bs Hbs Hn; cbv beta in Hn; subst bs. assert (Hn : is_byte n) by now inversion Hbs.
        rewrite bit7 by auto. unfold is_byte in Hn. destruct (N.ltb_spec n 128).
        -- eapply rspec_weaken; [rgo| |reflexivity]. intros bs [x h] Hb; cbv beta. simpl fst; simpl snd. split.
           ++ intros [-> [= -> ->]]. unfold der_len. rewrite N2Nat.id.
              destruct (Nat.ltb_spec (N.to_nat n) 128); [|lia]. simpl. repeat split; auto; lia.
           ++ intros (E1 & -> & H2). destruct (der_len_cases x H2) as [(E & L)|[(E & L)|(hh & l & E & L & _)]]; rewrite E in E1;
                injection E1 as -> ->; try lia. rewrite Nat2N.id. auto.
        -- destruct (N.eqb_spec n 0x81) as [->|N1].
           ++ eapply rspec_weaken; [rgo| |reflexivity]. intros bs [x h] Hb; cbv beta. simpl fst; simpl snd. split.
              ** intros (b1 & b2 & m & -> & -> & Hm & -> & [= -> ->]). bools. assert (is_byte m) by now inversion Hb. unfold is_byte in *.
                 unfold der_len. rewrite N2Nat.id.
                 destruct (Nat.ltb_spec (N.to_nat m) 128); [lia|]. destruct (Nat.ltb_spec (N.to_nat m) 256); [|lia].
                 simpl. repeat split; auto; lia.
              ** intros (E1 & -> & H2). destruct (der_len_cases x H2) as [(E & L)|[(E & L)|(hh & l & E & L & _)]]; rewrite E in E1.
                 --- injection E1 as E1 _. lia.
                 --- injection E1 as ->. exists [N.of_nat x], [], (N.of_nat x). repeat split; auto.
                     +++ apply N.ltb_ge. lia.
                     +++ now rewrite Nat2N.id.
                 --- injection E1 as E1 _. discriminate.
           ++ destruct (N.eqb_spec n 0x82) as [->|N2].
              ** cbv zeta. eapply rspec_weaken; [rgo| |reflexivity]. intros bs [x h] Hb; cbv beta. simpl fst; simpl snd. split.
                 --- intros (b1 & b2 & hi & -> & -> & b3 & b4 & lo & -> & -> & Hm & -> & [= -> ->]). simpl app in *.
                     inversion Hb as [|? ? Hhi Hb1]; subst. assert (Hlo : is_byte lo) by now inversion Hb1. unfold is_byte in *.
                     rewrite shl8_lor in * by auto. bools.
                     unfold der_len. rewrite N2Nat.id.
                     destruct (Nat.ltb_spec (N.to_nat (256 * hi + lo)) 128); [lia|].
                     destruct (Nat.ltb_spec (N.to_nat (256 * hi + lo)) 256); [lia|].
                     simpl length. repeat split; auto; [|lia].
                     rewrite (N.mul_comm 256), N.div_add_l, (N.div_small lo), N.add_0_r by lia.
                     rewrite N.add_comm, N.mod_add, N.mod_small by lia. reflexivity.
                 --- intros (E1 & -> & H2). destruct (der_len_cases x H2) as [(E & L)|[(E & L)|(hh & l & E & L & E2 & L1 & L2)]]; rewrite E in E1.
                     +++ injection E1 as E1 _. lia.
                     +++ injection E1 as E1 _. discriminate.
                     +++ injection E1 as ->. exists [hh], [l], hh. repeat split; auto. exists [l], [], l. repeat split; auto.
                         *** rewrite shl8_lor by auto. apply N.ltb_ge. lia.
                         *** rewrite shl8_lor by auto. rewrite <- E2, Nat2N.id. reflexivity.
              ** eapply rspec_weaken; [rgo| |reflexivity]. intros bs [x h] Hb; cbv beta. simpl fst; simpl snd. split; [tauto|].
                 intros (E1 & -> & H2). destruct (der_len_cases x H2) as [(E & L)|[(E & L)|(hh & l & E & L & _)]]; rewrite E in E1;
                   injection E1 as E1 _; lia.
      * intros bs r Hb; cbv beta. split.
        -- intros (b1 & b2 & n & -> & -> & E1 & E2 & E3). simpl. rewrite <- E1. repeat split; auto. 
        -- intros (_ & -> & E2 & E3). remember (der_len (fst r)) as d eqn:Ed.
           destruct d as [|n d]; [exfalso; destruct (der_len_cases (fst r) E3) as [(E & L)|[(E & L)|(hh & l & E & L & _)]]; rewrite E in Ed; discriminate|].
           exists [n], d, n. simpl in E2. repeat split; auto. 
      * intros inp _. split; [intros []|]. intros H; now apply H.
    + eapply rspec_weaken; [apply (@rspec_pnc ParseCertificateChainError (nat * nat) 0 PAssert)| |].
      * intros bs r _. split; [tauto|]. intros [? _]. tauto.
      * intros inp _. tauto.
  - intros bs r _; cbv beta. split.
    + intros (b1 & b2 & b & -> & -> & -> & -> & E1 & E2). simpl. repeat split; auto.
    + intros (-> & E1 & E2). exists [0x30%N], (der_len (fst r)), 0x30%N. simpl in *. repeat split; auto.
  - intros inp _; cbv beta. split.
    + intros [[]|(b1 & rest & b & -> & -> & H)]. simpl. eauto.
    + intros (b & rest & -> & H). right. exists [b], rest, b. auto.
Qed.

Lemma der_framed_split cert : der_framed cert <->
  exists len content, cert = (0x30%N :: der_len len) ++ content /\ length content = len /\ (N.of_nat len < 65536)%N.
Proof.
  unfold der_framed. split.
  - intros (c & H1 & ->). exists (length c), c. auto.
  - intros (len & c & -> & <- & H). exists c. auto.
Qed.
Lemma der_framed_nonempty cert : der_framed cert -> 2 <= length cert.
Proof.
  rewrite der_framed_split. intros (len & c & -> & E & H). rewrite app_length.
  destruct (der_len_cases len H) as [(E1 & _)|[(E1 & _)|(hh & l & E1 & _)]]; rewrite E1; simpl; lia.
Qed.

Lemma chain_loop_spec left : forall pre inp acc, bytes inp ->
  let r := fst (chain_loop left (pre ++ inp) acc (rd pre inp 0)) in
  (forall inters leaf, inp = concat inters ++ leaf -> Forall der_framed inters -> der_framed leaf ->
     length inters <= left -> r = Ok (acc ++ inters, length pre + length (concat inters))) /\
  (forall x, r = Ok x -> exists inters leaf, inp = concat inters ++ leaf /\ Forall der_framed inters /\
     der_framed leaf /\ length inters <= left /\ x = (acc ++ inters, length pre + length (concat inters))) /\
  ((exists p, r = Panic p) <-> exists inters b rest, inp = concat inters ++ b :: rest /\
     Forall der_framed inters /\ length inters <= left /\ b <> 0x30%N).
Proof.
  induction left as [|left IH]; intros pre inp acc Hb; cbv zeta; remember (fst (chain_loop _ _ _ _)) as RR eqn:ER.
  - cbn [chain_loop] in ER. unfold bind at 1, gets at 1 in ER. change (r_byte (rd pre inp 0)) with (length pre) in ER.
    unfold bind at 1 in ER. destruct (rspec_read_cert_size pre inp Hb) as (H1 & H2 & H3); [lia|].
    destruct (read_cert_size (rd pre inp 0)) as [[[len h]|e|p] s] eqn:Er.
    + destruct (H2 _ _ eq_refl) as (bs & rest & -> & (Ebs & Eh & Hl) & _). simpl in Ebs, Eh, Hl.
      pose proof (H1 bs rest (len, h) eq_refl (conj Ebs (conj Eh Hl))) as E2. injection E2 as ->.
      unfold bind at 1, gets at 1 in ER. unfold r_remaining in ER.
      change (r_buf (rd (pre ++ bs) rest 0)) with ((pre ++ bs) ++ rest) in ER.
      change (r_byte (rd (pre ++ bs) rest 0)) with (length (pre ++ bs)) in ER.
      rewrite !app_length in ER. replace (length pre + length bs + length rest - (length pre + length bs)) with (length rest) in ER by lia.
      assert (NP : (exists inters b rst, bs ++ rest = concat inters ++ b :: rst /\ Forall der_framed inters /\ length inters <= 0 /\ b <> 48%N) -> False).
      { intros (inters & b & rst & E & _ & L & Nb). destruct inters; [|simpl in L; lia]. simpl in E.
        rewrite Ebs in E. injection E as <- _. congruence. }
      assert (F0 : forall leaf, bs ++ rest = leaf -> der_framed leaf -> len = length rest).
      { intros leaf El Hlf. apply der_framed_split in Hlf as (len' & c & E & E3 & E4). subst leaf.
        pose proof (H1 (48%N :: der_len len') c (len', S (length (der_len len'))) E) as H1'.
        specialize (H1' (conj eq_refl (conj eq_refl E4))). assert (E5 : len = len') by congruence.
        rewrite <- E5 in E. rewrite Ebs in E. apply app_inv_head in E. congruence. }
      destruct (Nat.ltb_spec (length rest) len) as [L|L]; [|destruct (Nat.eqb_spec len (length rest)) as [L'|L']]; simpl in ER; subst RR.
      * split; [|split].
        -- intros inters leaf El _ Hlf Hle. destruct inters; [|simpl in Hle; lia]. simpl in El.
           apply F0 in El; auto. lia.
        -- discriminate.
        -- split; [intros (p & [=])|]. intros X; destruct (NP X).
      * split; [|split].
        -- intros inters leaf El _ Hlf Hle. destruct inters; [|simpl in Hle; lia]. simpl.
           now rewrite app_nil_r, Nat.add_0_r.
        -- intros x [= <-]. exists [], (bs ++ rest). simpl. rewrite app_nil_r, Nat.add_0_r. repeat split; auto.
           apply der_framed_split. exists len, rest. rewrite Ebs. auto.
        -- split; [intros (p & [=])|]. intros X; destruct (NP X).
      * split; [|split].
        -- intros inters leaf El _ Hlf Hle. destruct inters; [|simpl in Hle; lia]. simpl in El.
           apply F0 in El; auto. lia.
        -- discriminate.
        -- split; [intros (p & [=])|]. intros X; destruct (NP X).
    + simpl in ER; subst RR. split; [|split].
      * intros inters leaf El _ Hlf Hle. destruct inters; [|simpl in Hle; lia]. simpl in El. subst leaf.
        apply der_framed_split in Hlf as (len' & c & E & E3 & E4).
        pose proof (H1 (48%N :: der_len len') c (len', S (length (der_len len'))) E (conj eq_refl (conj eq_refl E4))). discriminate.
      * discriminate.
      * split; [intros (p & [=])|]. intros (inters & b & rst & E & _ & L & Nb). destruct inters; [|simpl in L; lia]. simpl in E.
        destruct (proj2 H3) as (p & r & Hp); [eauto|]. discriminate.
    + simpl in ER; subst RR. destruct (proj1 H3) as (b & rst & -> & Nb); [eauto|]. split; [|split].
      * intros inters leaf El _ Hlf Hle. destruct inters; [|simpl in Hle; lia]. simpl in El. subst leaf.
        apply der_framed_split in Hlf as (len' & c & E & E3 & E4). injection E as -> _. congruence.
      * discriminate.
      * split; [|eauto]. intros _. exists [], b, rst. simpl. auto.
  - cbn [chain_loop] in ER. unfold bind at 1, gets at 1 in ER. change (r_byte (rd pre inp 0)) with (length pre) in ER.
    unfold bind at 1 in ER. destruct (rspec_read_cert_size pre inp Hb) as (H1 & H2 & H3); [lia|].
    destruct (read_cert_size (rd pre inp 0)) as [[[len h]|e|p] s] eqn:Er.
    + destruct (H2 _ _ eq_refl) as (bs & rest & -> & (Ebs & Eh & Hl) & _). simpl in Ebs, Eh, Hl.
      pose proof (H1 bs rest (len, h) eq_refl (conj Ebs (conj Eh Hl))) as E2. injection E2 as ->.
      unfold bind at 1, gets at 1 in ER. unfold r_remaining in ER.
      change (r_buf (rd (pre ++ bs) rest 0)) with ((pre ++ bs) ++ rest) in ER.
      change (r_byte (rd (pre ++ bs) rest 0)) with (length (pre ++ bs)) in ER.
      rewrite !app_length in ER. replace (length pre + length bs + length rest - (length pre + length bs)) with (length rest) in ER by lia.
      (* any framed first certificate has this header *)
      assert (F0 : forall cert tail, bs ++ rest = cert ++ tail -> der_framed cert ->
                exists c, cert = bs ++ c /\ rest = c ++ tail /\ length c = len).
      { intros cert tail El Hlf. apply der_framed_split in Hlf as (len' & c & E & E3 & E4). subst cert.
        rewrite <- app_assoc in El.
        pose proof (H1 (48%N :: der_len len') (c ++ tail) (len', S (length (der_len len'))) El) as H1'.
        specialize (H1' (conj eq_refl (conj eq_refl E4))). assert (E5 : len = len') by congruence.
        rewrite <- E5 in *. exists c. rewrite <- Ebs in *. apply app_inv_head in El. auto. }
      destruct (Nat.ltb_spec (length rest) len) as [L|L]; [|destruct (Nat.eqb_spec len (length rest)) as [L'|L']].
      * simpl in ER; subst RR. split; [|split].
        -- intros inters leaf El HF Hlf Hle. exfalso. destruct inters as [|i inters]; simpl in El.
           ++ rewrite <- (app_nil_r leaf) in El. destruct (F0 _ _ El Hlf) as (c & _ & -> & Hc).
              rewrite app_nil_r in L. lia.
           ++ rewrite <- app_assoc in El. assert (Hi : der_framed i) by now inversion HF. assert (HF' : Forall der_framed inters) by now inversion HF. destruct (F0 _ _ El ltac:(auto)) as (c & _ & -> & Hc).
              rewrite app_length in L. lia.
        -- discriminate.
        -- split; [intros (p & [=])|]. intros (inters & b & rst & El & HF & Hle & Nb). exfalso.
           destruct inters as [|i inters]; simpl in El.
           ++ rewrite Ebs in El. injection El as <- _. congruence.
           ++ rewrite <- app_assoc in El. assert (Hi : der_framed i) by now inversion HF. assert (HF' : Forall der_framed inters) by now inversion HF. destruct (F0 _ _ El ltac:(auto)) as (c & _ & -> & Hc).
              rewrite app_length in L. lia.
      * simpl in ER; subst RR. split; [|split].
        -- intros inters leaf El HF Hlf Hle. destruct inters as [|i inters]; simpl in El |- *.
           ++ now rewrite app_nil_r, Nat.add_0_r.
           ++ exfalso. rewrite <- app_assoc in El. assert (Hi : der_framed i) by now inversion HF. assert (HF' : Forall der_framed inters) by now inversion HF. destruct (F0 _ _ El ltac:(auto)) as (c & _ & -> & Hc).
              pose proof (der_framed_nonempty leaf Hlf). rewrite !app_length in L'. lia.
        -- intros x [= <-]. exists [], (bs ++ rest). simpl. rewrite app_nil_r, Nat.add_0_r. repeat split; auto; [|lia].
           apply der_framed_split. exists len, rest. rewrite Ebs. auto.
        -- split; [intros (p & [=])|]. intros (inters & b & rst & El & HF & Hle & Nb). exfalso.
           destruct inters as [|i inters]; simpl in El.
           ++ rewrite Ebs in El. injection El as <- _. congruence.
           ++ rewrite <- app_assoc in El. assert (Hi : der_framed i) by now inversion HF. assert (HF' : Forall der_framed inters) by now inversion HF. destruct (F0 _ _ El ltac:(auto)) as (c & _ & -> & Hc).
              rewrite !app_length in L'. simpl in L'. lia.
      * destruct (take_bytes rest len) as (c & rest' & -> & Hc); [lia|].
        rewrite app_length in *.
        destruct (Nat.leb_spec (length pre + len + h) (length pre + (length bs + (length c + length rest')))) as [L2|L2]; [|lia].
        unfold bind at 1, ret at 1 in ER. unfold bind at 1 in ER.
        apply bytes_app in Hb as [Hb1 Hb2].
        destruct (rspec_map_err 0 PCCRead (skip_ignored len) _ _ (rspec_skip_ignored len) (pre ++ bs) (c ++ rest') Hb2) as (K1 & _ & _); [lia|].
        rewrite (K1 c rest' tt eq_refl Hc) in ER. clear K1.
        assert (Es : slice (pre ++ bs ++ c ++ rest') (length pre) (length pre + len + h) = bs ++ c).
        { replace (length pre + len + h) with (length pre + length (bs ++ c)) by (rewrite app_length; lia).
          rewrite (app_assoc bs c rest'). now rewrite slice_mid. }
        rewrite Es in ER. apply bytes_app in Hb2 as [Hb2 Hb3].
        specialize (IH ((pre ++ bs) ++ c) rest' (acc ++ [bs ++ c]) Hb3). cbv zeta in IH.
        replace (((pre ++ bs) ++ c) ++ rest') with (pre ++ bs ++ c ++ rest') in IH by (now rewrite <- !app_assoc).
        rewrite <- ER in IH. destruct IH as (I1 & I2 & I3).
        assert (HFb : der_framed (bs ++ c)) by (apply der_framed_split; exists len, c; rewrite Ebs; auto).
        assert (F1 : forall cert tail, bs ++ c ++ rest' = cert ++ tail -> der_framed cert -> cert = bs ++ c /\ tail = rest').
        { intros cert tail El Hcf. destruct (F0 cert tail El Hcf) as (c' & -> & Er' & Hc').
          assert (c' = c).
          { apply (f_equal (firstn len)) in Er'. now rewrite !firstn_app_exact in Er' by auto. }
          subst c'. apply app_inv_head in Er'. auto. }
        split; [|split].
        -- intros inters leaf El HF Hlf Hle. destruct inters as [|i inters]; simpl in El.
           ++ exfalso. rewrite <- (app_nil_r leaf) in El. destruct (F1 leaf [] El Hlf) as (_ & <-). simpl in L'. lia.
           ++ rewrite <- app_assoc in El. assert (Hi : der_framed i) by now inversion HF. assert (HF' : Forall der_framed inters) by now inversion HF.
              destruct (F1 _ _ El ltac:(auto)) as (-> & <-). simpl in Hle.
              rewrite (I1 inters leaf eq_refl) by (auto; lia). rewrite <- app_assoc. simpl.
              do 2 f_equal. rewrite !app_length. lia.
        -- intros x Hx. destruct (I2 x Hx) as (inters & leaf & -> & G1 & G2 & G3 & ->).
           exists ((bs ++ c) :: inters), leaf. simpl. rewrite <- !app_assoc. repeat split; auto; [lia|].
           simpl. f_equal. rewrite !app_length. lia.
        -- rewrite I3. split.
           ++ intros (inters & b & rst & -> & G1 & G2 & G3). exists ((bs ++ c) :: inters), b, rst. simpl.
              rewrite <- !app_assoc. repeat split; auto. lia.
           ++ intros (inters & b & rst & El & HF & Hle & Nb). destruct inters as [|i inters]; simpl in El.
              ** rewrite Ebs in El. injection El as <- _. congruence.
              ** rewrite <- app_assoc in El. assert (Hi : der_framed i) by now inversion HF. assert (HF' : Forall der_framed inters) by now inversion HF.
                 destruct (F1 _ _ El ltac:(auto)) as (-> & <-). simpl in Hle. exists inters, b, rst. repeat split; auto. lia.
    + simpl in ER; subst RR. assert (NR : forall cert tail, inp = cert ++ tail -> ~ der_framed cert).
      { intros cert tail El Hlf. apply der_framed_split in Hlf as (len' & c & E & E3 & E4). subst cert. rewrite <- app_assoc in El.
        pose proof (H1 (48%N :: der_len len') (c ++ tail) (len', S (length (der_len len'))) El (conj eq_refl (conj eq_refl E4))). discriminate. }
      split; [|split].
      * intros inters leaf El HF Hlf Hle. exfalso. destruct inters as [|i inters]; simpl in El.
        -- apply (NR leaf []); [now rewrite app_nil_r|auto].
        -- rewrite <- app_assoc in El. assert (Hi : der_framed i) by now inversion HF. assert (HF' : Forall der_framed inters) by now inversion HF. eapply NR; eauto.
      * discriminate.
      * split; [intros (p & [=])|]. intros (inters & b & rst & E & HF & L & Nb). destruct inters as [|i inters]; simpl in E.
        -- destruct (proj2 H3) as (p & r & Hp); [eauto|]. discriminate.
        -- rewrite <- app_assoc in E. assert (Hi : der_framed i) by now inversion HF. assert (HF' : Forall der_framed inters) by now inversion HF. exfalso. eapply NR; eauto.
    + simpl in ER; subst RR. destruct (proj1 H3) as (b & rst & -> & Nb); [eauto|].
      assert (NR : forall cert tail, b :: rst = cert ++ tail -> ~ der_framed cert).
      { intros cert tail El Hlf. apply der_framed_split in Hlf as (len' & c & E & E3 & E4). subst cert.
        injection El as -> _. congruence. }
      split; [|split].
      * intros inters leaf El HF Hlf Hle. exfalso. destruct inters as [|i inters]; simpl in El.
        -- apply (NR leaf []); [now rewrite app_nil_r|auto].
        -- rewrite <- app_assoc in El. assert (Hi : der_framed i) by now inversion HF. assert (HF' : Forall der_framed inters) by now inversion HF. eapply NR; eauto.
      * discriminate.
      * split; [|eauto]. intros _. exists [], b, rst. simpl. repeat split; auto. lia.
Qed.

(** One step of a program whose first part never panics. *)
Lemma step_cases {E A B} (m : M Reader E A) P (k : A -> M Reader E B) pre inp :
  rspec 0 m P never -> bytes inp ->
  (exists bs rest a, inp = bs ++ rest /\ P bs a /\ bind m k (rd pre inp 0) = k a (rd (pre ++ bs) rest 0)) \/
  ((forall bs rest a, inp = bs ++ rest -> ~ P bs a) /\ exists e s, bind m k (rd pre inp 0) = (Err e, s)).
Proof.
  intros H Hb. destruct (H pre inp Hb) as (H1 & H2 & H3); [lia|]. unfold bind.
  destruct (m (rd pre inp 0)) as [[a|e|p] s].
  - left. destruct (H2 a s eq_refl) as (bs & rest & E1 & Ha & _). exists bs, rest, a. repeat split; auto.
    pose proof (H1 bs rest a E1 Ha) as E2. now injection E2 as ->.
  - right. split; [|eauto]. intros bs rest a E1 Ha. pose proof (H1 bs rest a E1 Ha). discriminate.
  - destruct (proj1 H3). eauto.
Qed.

Lemma split_eq {A} (a b c d : list A) : a ++ b = c ++ d -> length a = length c -> a = c /\ b = d.
Proof.
  intros E L. split.
  - apply (f_equal (firstn (length a))) in E. now rewrite !firstn_app_exact in E by lia.
  - apply (f_equal (skipn (length a))) in E. now rewrite !skipn_app_exact in E by lia.
Qed.


Lemma chain_bytes_length c :
  length (chain_bytes c) = 4 + length (cc_root_hash c) + length (concat (cc_intermediates c)) + length (cc_leaf_cert c).
Proof. unfold chain_bytes, chain_layout. rewrite !app_length. simpl. lia. Qed.

Lemma chain_parse_spec ds buf : bytes buf ->
  (forall c, chain_parse buf ds = Ok c <-> chain_ok ds c /\ (N.of_nat (length buf) < 65536)%N /\ buf = chain_bytes c) /\
  ((exists p, chain_parse buf ds = Panic p) <-> chain_bad_tag ds buf).
Proof.
  intros Hb. unfold chain_parse, run_parser. rewrite rd_new.
  (* every accepted or panicking buffer starts this way *)
  set (good := exists root tail, length root = ds /\ (N.of_nat (length buf) < 65536)%N /\
                 buf = u16le (N.of_nat (length buf)) ++ zeros 2 ++ root ++ tail).
  assert (G1 : forall c, chain_ok ds c -> (N.of_nat (length buf) < 65536)%N -> buf = chain_bytes c -> good).
  { intros c (Hr & _) Hl E. exists (cc_root_hash c), (concat (cc_intermediates c) ++ cc_leaf_cert c).
    repeat split; auto. rewrite E at 1. unfold chain_bytes, chain_layout. do 2 f_equal.
    rewrite E, chain_bytes_length. lia. }
  assert (G2 : chain_bad_tag ds buf -> good).
  { intros (root & inters & b & rest & H1 & _ & _ & _ & H2 & H3).
    exists root, (concat inters ++ b :: rest). auto. }
  assert (BAD : forall r : res ParseCertificateChainError CertificateChain, ~ good -> (exists e, r = Err e) ->
     (forall c, r = Ok c <-> chain_ok ds c /\ (N.of_nat (length buf) < 65536)%N /\ buf = chain_bytes c) /\
     ((exists p, r = Panic p) <-> chain_bad_tag ds buf)).
  { intros r Hng (e & ->). split.
    - intros c. split; [discriminate|]. intros (? & ? & ?). destruct Hng; eauto.
    - split; [intros (p & [=])|]. intros H. destruct Hng; auto. }
  remember (fst (chain_parse_m buf ds (rd [] buf 0))) as RR eqn:ER. unfold chain_parse_m in ER.
  Ltac stp := match goal with ER : ?RR = fst (bind ?m ?kk (rd ?pre ?inp 0)) |- _ =>
     let sp := fresh "sp" in
     assert (sp := fun P Hm Hi => step_cases m P kk pre inp Hm Hi);
     specialize (sp _ ltac:(first [exact (rspec_map_err 0 PCCRead _ _ _ rspec_get_u16)
        | exact (rspec_map_err 0 PCCRead _ _ _ (rspec_skip_reserved _))
        | exact (rspec_map_err 0 PCCRead _ _ _ (rspec_skip_ignored _))]) ltac:(assumption)) end.
  stp.
  destruct sp
    as [(b1 & r1 & len & E1 & (Eb1 & Hlen) & EE)|(N1 & e & s & EE)]; rewrite EE in ER; clear EE.
  2:{ apply BAD; [|subst RR; simpl; eauto]. intros (root & tail & _ & Hl & E). eapply N1; [exact E|]. split; [reflexivity|exact Hl]. }
  destruct (Nat.eqb_spec (N.to_nat len) (length buf)) as [El|El].
  2:{ apply BAD; [|subst RR; simpl; eauto]. intros (root & tail & _ & Hl & E). rewrite E1 in E at 1.
      apply split_eq in E as [E _]; [|rewrite Eb1; reflexivity]. rewrite Eb1 in E.
      apply (le_bytes_inj 2) in E; [lia|exact Hlen|exact Hl]. }
  assert (len = N.of_nat (length buf)) by lia. subst len. clear El.
  assert (Hr1 : bytes r1) by (rewrite E1 in Hb; now apply bytes_app in Hb).
  cbn [negb] in ER.
  stp. destruct sp
    as [(b2 & r2 & a & E2 & Eb2 & EE)|(N2 & e & s & EE)]; rewrite EE in ER; clear EE.
  2:{ apply BAD; [|subst RR; simpl; eauto]. intros (root & tail & _ & Hl & E). rewrite E1 in E at 1.
      apply split_eq in E as [_ E]; [|rewrite Eb1; reflexivity]. eapply (N2 _ _ tt); [exact E|reflexivity]. }
  assert (Hr2 : bytes r2) by (rewrite E2 in Hr1; now apply bytes_app in Hr1).
  unfold bind at 1, gets at 1 in ER.
  assert (O4 : r_byte (rd (([] ++ b1) ++ b2) r2 0) = 4) by (rewrite Eb1, Eb2; reflexivity).
  rewrite O4 in ER.
  stp. destruct sp
    as [(root & r3 & a3 & E3 & Eb3 & EE)|(N3 & e & s & EE)]; rewrite EE in ER; clear EE.
  2:{ apply BAD; [|subst RR; simpl; eauto]. intros (root & tail & Hroot & Hl & E). rewrite E1, E2 in E at 1.
      apply split_eq in E as [_ E]; [|rewrite Eb1; reflexivity].
      apply split_eq in E as [_ E]; [|rewrite Eb2; reflexivity]. eapply (N3 _ _ tt); [exact E|exact Hroot]. }
  assert (Hr3 : bytes r3) by (rewrite E3 in Hr2; now apply bytes_app in Hr2).
  assert (L4 : length (b1 ++ b2) = 4) by (rewrite Eb1, Eb2; reflexivity).
  assert (EB : buf = (([] ++ b1) ++ b2) ++ root ++ r3) by (rewrite E1, E2, E3; simpl; now rewrite <- app_assoc).
  assert (EB' : buf = ((([] ++ b1) ++ b2) ++ root) ++ r3) by (rewrite EB; now rewrite <- !app_assoc).
  assert (Es : slice buf 4 (4 + ds) = root).
  { rewrite EB at 1. rewrite <- L4. change ([] ++ b1) with b1. now rewrite slice_mid by auto. }
  destruct (Nat.leb_spec (4 + ds) (length buf)) as [L|L]; [|rewrite EB in L; simpl in L; rewrite !app_length in *; lia].
  unfold bind at 1, ret at 1 in ER. cbv zeta in ER. rewrite Es in ER.
  pose proof (chain_loop_spec MAX_CERT_CHAIN_DEPTH ((([] ++ b1) ++ b2) ++ root) r3 [] Hr3) as S. cbv zeta in S.
  rewrite <- EB' in S.
  unfold bind at 1 in ER. destruct (chain_loop MAX_CERT_CHAIN_DEPTH buf [] (rd ((([] ++ b1) ++ b2) ++ root) r3 0)) as [x s].
  cbn [fst] in S. destruct S as (S1 & S2 & S3).
  assert (LP : length ((([] ++ b1) ++ b2) ++ root) = 4 + ds) by (simpl; rewrite app_length, L4, Eb3; auto).
  assert (CH : forall inters leaf, r3 = concat inters ++ leaf -> skipn (4 + ds + length (concat inters)) buf = leaf).
  { intros inters leaf ->. rewrite EB', app_assoc. apply skipn_app_exact. rewrite app_length, LP. reflexivity. }
  assert (HL : (N.of_nat (length buf) < 65536)%N) by exact Hlen.
  assert (CB : forall inters leaf, r3 = concat inters ++ leaf -> buf = chain_layout root inters leaf).
  { intros inters leaf Er. rewrite E1, E2, E3, Er. unfold chain_layout. rewrite Eb1, Eb2.
    replace (N.of_nat (4 + length root + length (concat inters) + length leaf)) with (N.of_nat (length buf)); [reflexivity|].
    f_equal. rewrite EB. simpl. rewrite !app_length, Er, app_length. rewrite app_length in L4. lia. }
  assert (BC : forall c, length (cc_root_hash c) = ds -> buf = chain_bytes c ->
             root = cc_root_hash c /\ r3 = concat (cc_intermediates c) ++ cc_leaf_cert c).
  { intros c Hc E. rewrite EB in E. unfold chain_bytes, chain_layout in E.
    rewrite (app_assoc (u16le _) (zeros 2)) in E.
    apply split_eq in E as [_ E]; [|exact L4]. apply split_eq in E as [-> E]; [|congruence]. auto. }
  rewrite LP in S1, S2. simpl app in S1, S2. destruct x as [[inter lo]|e|p].
  - destruct (S2 _ eq_refl) as (inters & leaf & Er & F1 & F2 & F3 & EX). assert (lo = 4 + ds + length (concat inters)) by congruence. assert (inter = inters) by congruence. clear EX. subst lo inter.
    destruct (Nat.leb_spec (4 + ds + length (concat inters)) (length buf)) as [L'|L'].
    2:{ rewrite EB', app_length, LP, Er, app_length in L'. lia. }
    unfold bind, ret in ER. cbn [fst] in ER. rewrite (CH inters leaf Er) in ER. subst RR. split.
    + intros c. split.
      * intros [= <-]. repeat split; auto. now apply CB.
      * intros ((C1 & C2 & C3 & C4) & _ & E). destruct (BC c C1 E) as [-> Er'].
        assert (inters = cc_intermediates c) by (pose proof (S1 _ _ Er' C2 C3 C4) as X; now injection X).
        subst inters. rewrite Er' in Er. apply app_inv_head in Er. subst leaf. now destruct c.
    + split; [intros (p & [=])|]. intros (root' & inters' & b & rst & Hr' & HF & Hd & Nb & _ & E).
      exfalso. destruct (proj2 S3) as (p & [=]). exists inters', b, rst. repeat split; auto.
      rewrite EB in E at 1. rewrite (app_assoc (u16le _) (zeros 2)) in E.
      apply split_eq in E as [_ E]; [|exact L4]. apply split_eq in E as [_ E]; [auto|congruence].
  - simpl in ER; subst RR. split.
    + intros c. split; [discriminate|]. intros ((C1 & C2 & C3 & C4) & _ & E). destruct (BC c C1 E) as [_ Er'].
      pose proof (S1 _ _ Er' C2 C3 C4). discriminate.
    + split; [intros (p & [=])|]. intros (root' & inters' & b & rst & Hr' & HF & Hd & Nb & _ & E).
      destruct (proj2 S3) as (p & [=]). exists inters', b, rst. repeat split; auto.
      rewrite EB in E at 1. rewrite (app_assoc (u16le _) (zeros 2)) in E.
      apply split_eq in E as [_ E]; [|exact L4]. apply split_eq in E as [_ E]; [auto|congruence].
  - simpl in ER; subst RR. split.
    + intros c. split; [discriminate|]. intros ((C1 & C2 & C3 & C4) & _ & E). destruct (BC c C1 E) as [_ Er'].
      pose proof (S1 _ _ Er' C2 C3 C4). discriminate.
    + split; [intros _|eauto]. destruct (proj1 S3) as (inters & b & rst & Er & F1 & F2 & F3); [eauto|].
      exists root, inters, b, rst. repeat split; auto. rewrite E1 at 1. rewrite E2, E3, Er, Eb1, Eb2. reflexivity.
Qed.

Lemma fold_len (l : list (list N)) : forall n, fold_left (fun acc i => acc + length i) l n = n + length (concat l).
Proof. induction l; intros n; simpl; [lia|]. rewrite IHl, app_length. lia. Qed.
Lemma chain_length_eq c : chain_length c = length (chain_bytes c).
Proof. unfold chain_length. rewrite chain_bytes_length, fold_len. lia. Qed.

Lemma emits_chain c o : (N.of_nat (length (chain_bytes c)) < 65536)%N ->
  emits o (chain_write c) WCCBufferFull (chain_bytes c) (o + length (chain_bytes c)).
Proof.
  intros H. unfold chain_write. rewrite chain_length_eq.
  destruct (N.ltb_spec 65535 (N.of_nat (length (chain_bytes c)))); [lia|]. rewrite N.mod_small by lia.
  eapply emits_eq.
  - emits_go. apply (emits_iter WCCBufferFull _ (fun i => i)). intros x o' _.
    eapply emits_eq; [emits_go|apply app_nil_r|reflexivity].
  - rewrite map_id, !app_nil_r. unfold chain_bytes at 2, chain_layout.
    rewrite <- chain_bytes_length. reflexivity.
  - rewrite map_id, chain_bytes_length, repeat_length, le_bytes_length. lia.
Qed.
Lemma chain_write_too_long c w : (65535 < N.of_nat (length (chain_bytes c)))%N ->
  chain_write c w = (Err MaxSizeExceeded, w).
Proof.
  intros H. unfold chain_write. rewrite chain_length_eq.
  destruct (N.ltb_spec 65535 (N.of_nat (length (chain_bytes c)))); [reflexivity|lia].
Qed.
End Gram.
