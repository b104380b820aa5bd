(** Writers and parsers of vendor ids, opaque elements and opaque data. *)
From Verif Require Import Base BaseLemmas Config Encoding MsgCommon
     WriterLogic ReaderLogic ReaderBits ReaderLoops SpecWire GramBasic.

(** Decompose a parser that may panic. *)
Ltac rgop1 :=
  match goal with
  | |- rspec _ (bind (lift (of_option _ _)) _) _ _ => eapply rspec_lift_bind; intros
  | |- rspec _ (bind (lift _) _) _ _ => eapply rspec_lift_bind; intros
  | |- rspec _ (bind (map_err _ (get_bits _)) _) _ _ => eapply rspec_bits_bind; [lia|lia|intros; simpl Nat.add]
  | |- rspec _ (bind _ _) _ _ => eapply rspec_bind; [|intros]
  | |- rspec _ (map_err _ _) _ _ => eapply rspec_map_err
  | |- rspec _ (if _ then err _ else _) _ _ => eapply rspec_if_err; intros
  | |- rspec _ (ret _) _ _ => eapply rspec_ret
  | |- rspec _ (err _) _ _ => eapply rspec_err
  | |- rspec _ get_byte _ _ => eapply rspec_get_byte
  | |- rspec _ get_u16 _ _ => eapply rspec_get_u16
  | |- rspec _ get_u24 _ _ => eapply rspec_get_u24
  | |- rspec _ get_u32 _ _ => eapply rspec_get_u32
  | |- rspec _ (skip_reserved _) _ _ => eapply rspec_skip_reserved
  | |- rspec _ (skip_ignored _) _ _ => eapply rspec_skip_ignored
  | |- rspec _ (get_bits _) _ _ => eapply rspec_bits_end; lia
  | |- rspec _ (get_slice _ _) _ _ => eapply rspec_get_slice
  end.
Ltac rgop := repeat (cbv beta; rgop1).
Ltac gfwdp :=
  repeat match goal with
         | H : never _ |- _ => destruct H
         | H : False |- _ => destruct H
         | H : exists _, _ |- _ => destruct H
         | H : _ /\ _ |- _ => destruct H
         | H : _ \/ _ |- _ => destruct H
         end; subst.

Section Gram.
Context {cfg : Config}.

(** ** Vendor ids *)
Definition vendor_id_wire (v : VendorId) : list N :=
  [N.of_nat (length (vendor_id_bytes v))] ++ vendor_id_bytes v.
Lemma emits_vendor_id v o :
  emits o (vendor_id_write v) BufferFull (vendor_id_wire v) (N.of_nat (length (vendor_id_bytes v))).
Proof. destruct v; cbn [vendor_id_write]; (eapply emits_eq; [emits_go|reflexivity|reflexivity]). Qed.
Lemma rspec_vendor_id len :
  rspec 0 (vendor_id_read len)
    (fun bs v => vendor_id_ok v /\ N.of_nat (length (vendor_id_bytes v)) = len /\ bs = vendor_id_bytes v) never.
Proof.
  unfold vendor_id_read.
  assert (Hbad : forall n, (n <> 0 -> n <> 2 -> n <> 4 -> 
    @rspec ParseVendorIdError VendorId 0 (err PVIInvalidLen)
     (fun bs v => vendor_id_ok v /\ N.of_nat (length (vendor_id_bytes v)) = n /\ bs = vendor_id_bytes v) never)%N).
  { intros n H0 H2 H4. eapply rspec_weaken; [apply rspec_err| |reflexivity].
    intros bs v _. split; [tauto|]. intros (_ & H & _). destruct v; simpl in H; lia. }
  destruct len as [|[p|[p|[p|p|]|]|]]; try (apply Hbad; lia).
  - eapply rspec_weaken; [rgo| |reflexivity]. intros bs v _; cbv beta. split.
    + intros [-> ->]. simpl. auto.
    + intros (H & H1 & ->). destruct v; simpl in H1; try lia. auto.
  - eapply rspec_weaken; [rgo| |reflexivity]. intros bs v _; cbv beta. split.
    + intros; gfwd. simpl. auto.
    + intros (H & H1 & ->). destruct v; simpl in H1; try lia. simpl vendor_id_bytes. gnil. gback; auto.
  - eapply rspec_weaken; [rgo| |reflexivity]. intros bs v _; cbv beta. split.
    + intros; gfwd. simpl. auto.
    + intros (H & H1 & ->). destruct v; simpl in H1; try lia. simpl vendor_id_bytes. gnil. gback; auto.
Qed.

Lemma registry_code_eq r : registry_to_u8 r = registry_code r.
Proof. destruct r; reflexivity. Qed.
Lemma registry_len_eq r : vendor_id_len r = N.of_nat (registry_id_len r).
Proof. destruct r; reflexivity. Qed.
Lemma registry_of_code b r : registry_of_u8 b = Some r <-> b = registry_code r.
Proof.
  split.
  - intros H. unfold registry_of_u8 in H.
    repeat match type of H with context [match ?x with _ => _ end] => destruct x; try discriminate end;
      injection H as <-; reflexivity.
  - intros ->. destruct r; reflexivity.
Qed.

(** ** Opaque elements *)
Lemma oe_bytes_raw e : opaque_element_bytes e = oe_raw e ++ zeros ((4 - length (oe_raw e) mod 4) mod 4).
Proof. reflexivity. Qed.
Lemma oe_raw_len e : length (oe_raw e) = 4 + length (vendor_id_bytes (oe_vendor e)) + length (oe_data e).
Proof. unfold oe_raw. rewrite !app_length. simpl. lia. Qed.
Lemma oe_padding_eq raw : oe_padding raw = (4 - raw mod 4) mod 4.
Proof.
  unfold oe_padding. pose proof (Nat.mod_upper_bound raw 4 ltac:(lia)).
  destruct (Nat.eqb_spec (raw mod 4) 0) as [->|]; [reflexivity|].
  symmetry. apply Nat.mod_small. lia.
Qed.


Lemma emits_lift_map {E F A} o (f : E -> F) (full : F) (a : A) r : r = Ok a -> emits o (map_err f (lift r)) full [] a.
Proof. intros ->. apply (emits_ret o full a). Qed.
Lemma emits_oe e o : vendor_matches e ->
  emits o (oe_write e) WOEBufferFull (opaque_element_bytes e) tt.
Proof.
  intros Hv. unfold oe_write. eapply emits_eq.
  - eapply emits_bind; [emits_go|]. eapply emits_bind; [eapply emits_map_err; [apply emits_vendor_id|reflexivity]|].
    eapply emits_bind; [apply emits_lift_map|].
    + unfold ensure_vendor_id_len. rewrite Hv, registry_len_eq, N.eqb_refl. reflexivity.
    + emits_go.
  - rewrite oe_bytes_raw, oe_padding_eq, oe_raw_len, registry_code_eq, Nat2N.id.
    unfold oe_raw, vendor_id_wire. rewrite <- !app_assoc. simpl. rewrite app_nil_r. reflexivity.
  - reflexivity.
Qed.
(** A vendor id of the wrong length for its registry is refused. *)
Lemma oe_write_mismatch e w : ~ vendor_matches e -> w_wf w ->
  exists er w', oe_write e w = (Err er, w').
Proof.
  intros Hv Hw. unfold oe_write, bind at 1.
  destruct (emits_map_err woe_from (w_off w) _ _ _ _ WOEBufferFull (emits_put (w_off w) (registry_to_u8 (oe_registry e))) eq_refl w Hw eq_refl) as [A B].
  destruct (Nat.le_gt_cases (w_off w + 1) (length (w_buf w))) as [L|L]; [|destruct B as (k & _ & _ & ->); [simpl; lia|eauto]].
  rewrite A by (simpl; lia). unfold bind at 1.
  set (w1 := w_app w _). assert (Hw1 : w_wf w1) by (apply w_app_wf; simpl; lia).
  destruct (emits_map_err woe_from (w_off w1) _ _ _ _ WOEBufferFull (emits_vendor_id (oe_vendor e) (w_off w1)) eq_refl w1 Hw1 eq_refl) as [C D].
  destruct (Nat.le_gt_cases (w_off w1 + length (vendor_id_wire (oe_vendor e))) (length (w_buf w1))) as [L1|L1];
    [|destruct D as (k & _ & _ & ->); [lia|eauto]].
  rewrite C by lia. unfold bind at 1, map_err at 1, lift, ensure_vendor_id_len. rewrite registry_len_eq.
  destruct (N.eqb_spec (N.of_nat (length (vendor_id_bytes (oe_vendor e)))) (N.of_nat (registry_id_len (oe_registry e)))) as [E1|E1].
  - exfalso. apply Hv. unfold vendor_matches. lia.
  - eauto.
Qed.

Lemma of_option_ok {E A} (e : E) o (a : A) : of_option e o = Ok a <-> o = Some a.
Proof. destruct o; simpl; split; congruence. Qed.
Lemma of_option_nopanic {E A} (e : E) (o : option A) p : of_option e o <> Panic p.
Proof. destruct o; simpl; congruence. Qed.
Lemma ensure_ok v r u : ensure_vendor_id_len (N.of_nat (length (vendor_id_bytes v))) r = Ok u <->
  length (vendor_id_bytes v) = registry_id_len r.
Proof.
  unfold ensure_vendor_id_len. rewrite registry_len_eq. destruct u.
  destruct (N.eqb_spec (N.of_nat (length (vendor_id_bytes v))) (N.of_nat (registry_id_len r))); split; intros; auto; try lia; congruence.
Qed.

Lemma rspec_oe : rspec 0 oe_read (fun bs e => oe_ok e /\ bs = opaque_element_bytes e) oe_oversized.
Proof.
  unfold oe_read. eapply rspec_weaken; [rgop; [apply rspec_vendor_id|..]; rgop| |].
  - intros bs e Hb; cbv beta. split.
    + intros; gfwdp.
      match goal with H : of_option _ _ = Ok _ |- _ => apply of_option_ok, registry_of_code in H; subst end.
      match goal with H : ensure_vendor_id_len _ _ = Ok _ |- _ => apply ensure_ok in H end.
      match goal with H : length ?d = N.to_nat ?n |- _ => assert (n = N.of_nat (length d)) by lia; subst n end.
      rewrite Nat2N.id in *. split.
      * unfold oe_ok, oe_wire_ok, vendor_matches; simpl. auto.
      * rewrite oe_bytes_raw, oe_padding_eq, oe_raw_len. unfold oe_raw. simpl. rewrite app_nil_r, <- !app_assoc.
        rewrite Nat2N.id. reflexivity.
    + destruct e as [r v d]. intros (((Hv & Ho & Hl) & Hd) & ->). unfold vendor_matches in Hv. simpl in *.
      rewrite oe_bytes_raw, oe_raw_len. unfold oe_raw. simpl oe_registry. simpl oe_vendor. simpl oe_data.
      rewrite <- oe_padding_eq.
      rewrite <- !app_assoc. gnil.
      eexists [_], _, _. split; [reflexivity|]. split; [reflexivity|].
      exists r. split; [apply of_option_ok, registry_of_code; reflexivity|].
      eexists [_], _, _. split; [reflexivity|]. split; [reflexivity|].
      exists tt. split; [apply ensure_ok; auto|].
      eexists _, _, v. split; [reflexivity|]. split; [auto|].
      eexists _, _, (N.of_nat (length d)). split; [reflexivity|]. split; [auto|].
      eexists _, _, d. split; [reflexivity|]. rewrite !Nat2N.id. split; [auto|].
      eexists _, _, tt. split; [reflexivity|]. auto.
  - intros inp Hb; cbv beta. split.
    + intros H. gfwdp; try (exfalso; eapply of_option_nopanic; eassumption).
      * exfalso. unfold ensure_vendor_id_len in *. destruct (_ =? _)%N; discriminate.
      * match goal with H : of_option _ _ = Ok _ |- _ => apply of_option_ok, registry_of_code in H; subst end.
        match goal with H : ensure_vendor_id_len _ _ = Ok _ |- _ => apply ensure_ok in H end.
        match goal with H : N.to_nat ?n <= length ?d |- _ => destruct (take_bytes d (N.to_nat n) H) as (dat & rest & -> & Hd);
          assert (n = N.of_nat (length dat)) by lia; subst n end.
        match goal with H : length (vendor_id_bytes ?v) = registry_id_len ?r |- _ => exists (mkOE r v dat), rest end.
        unfold oe_wire_ok, vendor_matches; simpl. rewrite Nat2N.id in *. repeat split; auto.
        unfold oe_raw; simpl. rewrite <- !app_assoc. reflexivity.
    + intros ([r v d] & rest & (Hv & Ho & Hl) & Hd & ->). unfold vendor_matches in Hv. cbn [oe_registry oe_vendor oe_data] in *.
      unfold oe_raw. cbn [oe_registry oe_vendor oe_data]. rewrite <- !app_assoc.
      right. eexists [_], _, _. split; [reflexivity|]. split; [reflexivity|].
      right. exists r. split; [apply of_option_ok, registry_of_code; reflexivity|].
      right. eexists [_], _, _. split; [reflexivity|]. split; [reflexivity|].
      right. exists tt. split; [apply ensure_ok; auto|].
      right. eexists _, _, v. split; [reflexivity|]. split; [auto|].
      right. exists (u16le (N.of_nat (length d))), (d ++ rest), (N.of_nat (length d)). split; [reflexivity|]. split; [auto|].
      left. rewrite Nat2N.id, app_length. lia.
Qed.


Lemma emits_od d o : Forall vendor_matches d ->
  emits o (od_write d) WOEBufferFull (opaque_bytes d) tt.
Proof.
  intros HF. unfold od_write. eapply emits_eq.
  - emits_go. apply (emits_iter WOEBufferFull oe_write opaque_element_bytes).
    intros x o' Hx. apply emits_oe. rewrite Forall_forall in HF. now apply HF.
  - reflexivity.
  - reflexivity.
Qed.

Lemma pad4_len l : length (pad4 l) mod 4 = 0.
Proof.
  unfold pad4, zeros. rewrite app_length, repeat_length.
  pose proof (Nat.mod_upper_bound (length l) 4 ltac:(lia)).
  pose proof (Nat.div_mod (length l) 4 ltac:(lia)) as D.
  destruct (Nat.eq_dec (length l mod 4) 0) as [E1|E1].
  - rewrite E1. change ((4 - 0) mod 4) with 0. now rewrite Nat.add_0_r.
  - rewrite (Nat.mod_small (4 - length l mod 4)) by lia.
    replace (length l + (4 - length l mod 4)) with ((length l / 4 + 1) * 4) by lia. now rewrite Nat.mod_mul.
Qed.
Lemma oe_size_eq e : vendor_matches e -> oe_serialized_size e = length (opaque_element_bytes e).
Proof.
  intros Hv. unfold oe_serialized_size. rewrite registry_len_eq, Nat2N.id, <- Hv, oe_bytes_raw, app_length.
  unfold zeros. rewrite repeat_length, oe_padding_eq, oe_raw_len. reflexivity.
Qed.
Lemma od_size_eq d : Forall vendor_matches d -> od_serialized_size d = length (opaque_bytes d).
Proof.
  intros HF. unfold od_serialized_size, opaque_bytes. rewrite app_length, app_length. simpl length.
  replace (fold_left (fun acc e => acc + oe_serialized_size e) d 0) with (length (concat (map opaque_element_bytes d))); [lia|].
  change (length (concat (map opaque_element_bytes d))) with (0 + length (concat (map opaque_element_bytes d))).
  generalize 0. induction HF; intros n; cbn [map concat fold_left]; [simpl; lia|]. rewrite <- IHHF, app_length, oe_size_eq by auto. lia.
Qed.

Lemma rspec_od : rspec 0 od_read (fun bs d => od_ok d /\ bs = opaque_bytes d) od_overflow.
Proof.
  unfold od_read. eapply rspec_weaken; [rgop; apply (rspec_fill_gen oe_default _ _ _ (rspec_map_err 0 PODParseOpaqueElement _ _ _ rspec_oe) _ [] MAX_OPAQUE_ELEMENTS)| |].
  - intros bs d Hb; cbv beta. split.
    + intros H. gfwdp.
      match goal with H : seq_of _ _ _ |- _ => apply seq_of_map in H as [HF ->] end.
      match goal with H : length ?ys = N.to_nat ?n |- _ => assert (n = N.of_nat (length ys)) by lia; subst n; rename ys into es end.
      rewrite Nat2N.id in *. rewrite ?app_nil_l, firstn_app_exact by auto.
      inversion Hb as [|? ? Hx _]; subst. unfold is_byte in Hx. unfold od_ok. split; [auto|].
      unfold opaque_bytes. rewrite app_nil_r. reflexivity.
    + intros ((HF & Hl & H256) & ->). unfold opaque_bytes. gnil.
      eexists [_], _, _. split; [reflexivity|]. split; [reflexivity|].
      eexists _, _, tt. split; [reflexivity|]. split; [reflexivity|].
      eexists _, _, (d ++ repeat oe_default (MAX_OPAQUE_ELEMENTS - length d)). split; [reflexivity|]. rewrite Nat2N.id. split.
      * exists d. repeat split; auto. apply seq_of_map. auto.
      * split; auto. now rewrite firstn_app_exact.
  - intros inp Hb; cbv beta. split.
    + intros [[]|(? & ? & n & -> & -> & [[]|(? & ? & [] & -> & -> & [H|H])])].
      * destruct H as (bs & rest & ys & -> & Hs & H1 & H2 & H3). apply seq_of_map in Hs as [HF ->].
        eexists _, ys, rest. split; [reflexivity|]. repeat split; auto.
        destruct H3 as [H3|(H3 & b & e & rest' & -> & He & ->)]; eauto 7.
      * gfwdp.
    + intros (n & es & rest & -> & HF & H1 & H2 & H3).
      right. eexists [_], _, _. split; [reflexivity|]. split; [reflexivity|].
      right. eexists _, _, tt. split; [reflexivity|]. split; [reflexivity|].
      left. eexists _, rest, es. split; [reflexivity|]. repeat split; auto; [now apply seq_of_map|].
      destruct H3 as [H3|(H3 & e & rest' & He & ->)]; [auto|right]. split; auto. eexists _, e, rest'; eauto.
Qed.
End Gram.
