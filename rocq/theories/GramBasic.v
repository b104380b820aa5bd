(** Writers and parsers of GET_VERSION, VERSION, GET_CAPABILITIES, CAPABILITIES,
    NEGOTIATE_ALGORITHMS, ALGORITHMS against the wire formats. *)
From Verif Require Import Base BaseLemmas Config Encoding MsgCommon MsgVersion MsgCapabilities MsgAlgorithms
     WriterLogic ReaderLogic ReaderBits ReaderLoops SpecWire FlagLemmas.

Ltac rgo1 :=
  match goal with
  | |- rspec _ (bind (lift (of_option _ _)) _) _ _ => eapply rspec_opt_bind; intros
  | |- rspec _ (bind (map_err _ (get_bits _)) _) _ _ => eapply rspec_bits_bind'; [lia|lia|intros; simpl Nat.add]
  | |- rspec _ (bind _ _) _ _ => eapply rspec_bind'; [|intros]
  | |- rspec _ (map_err _ _) _ _ => eapply rspec_map_err
  | |- rspec _ (if _ then err _ else _) _ _ => eapply rspec_if_err'; intros
  | |- rspec _ (ret _) _ _ => eapply rspec_ret
  | |- rspec _ (err _) _ _ => eapply rspec_err
  | |- rspec _ get_byte _ _ => eapply rspec_get_byte
  | |- rspec _ get_u16 _ _ => eapply rspec_get_u16
  | |- rspec _ get_u24 _ _ => eapply rspec_get_u24
  | |- rspec _ get_u32 _ _ => eapply rspec_get_u32
  | |- rspec _ (skip_reserved _) _ _ => eapply rspec_skip_reserved
  | |- rspec _ (skip_ignored _) _ _ => eapply rspec_skip_ignored
  | |- rspec _ (get_bits _) _ _ => eapply rspec_bits_end; lia
  end.
Ltac rgo := repeat (cbv beta; rgo1).
Ltac gfwd :=
  repeat match goal with
         | H : exists _, _ |- _ => destruct H
         | H : _ /\ _ |- _ => destruct H
         end; subst.
(** Put a right-nested concatenation in the form the parser spec produces. *)
Ltac gnil := match goal with |- context [exists b1 b2 a, ?bs = b1 ++ b2 /\ _] =>
               rewrite <- (app_nil_r bs); rewrite <- ?app_assoc end.
Ltac bools := repeat match goal with
  | H : (_ <? _)%N = false |- _ => apply N.ltb_ge in H
  | H : (_ <=? _)%N = false |- _ => apply N.leb_gt in H
  | H : (_ <? _) = false |- _ => apply Nat.ltb_ge in H
  | H : (_ <=? _) = false |- _ => apply Nat.leb_gt in H
  | H : negb _ = false |- _ => apply negb_false_iff in H
  | H : (_ =? _)%N = true |- _ => apply N.eqb_eq in H
  | H : (_ =? _) = true |- _ => apply Nat.eqb_eq in H
  end.
Ltac gback1 :=
  match goal with
  | |- exists b1 b2 (a : unit), ?bs = b1 ++ b2 /\ _ => eexists _, _, tt; split; [reflexivity|]
  | |- exists b1 b2 a, ?bs = b1 ++ b2 /\ _ => eexists _, _, _; split; [reflexivity|]
  | |- exists a, ?x = Some a /\ _ => eexists; split
  | |- _ /\ _ => split
  | |- ?a = ?a => reflexivity
  | |- @eq (list N) _ _ => reflexivity
  end.
Ltac gback := repeat (cbv beta; gback1).

Section Gram.
Context {cfg : Config}.

(** ** GET_VERSION *)
Lemma emits_get_version o : emits o get_version_write_body BufferFull (zeros 2) (o + 2).
Proof. apply emits_put_reserved. Qed.
Lemma rspec_get_version : rspec 0 get_version_parse (fun bs _ => bs = zeros 2) never.
Proof.
  unfold get_version_parse. eapply rspec_weaken; [rgo| |reflexivity].
  intros bs [] _; cbv beta. split.
  - intros; gfwd. apply app_nil_r.
  - intros ->. gnil. gback.
Qed.

(** ** VERSION *)
Lemma low_nibble a b : (a < 16)%N -> field (a + 16 * b) 0 4 = a.
Proof.
  intros. unfold field. change (2 ^ N.of_nat 0)%N with 1%N. change (2 ^ N.of_nat 4)%N with 16%N.
  rewrite N.div_1_r, (N.mul_comm 16), N.mod_add by lia. now apply N.mod_small.
Qed.
Lemma high_nibble a b : (a < 16)%N -> (b < 16)%N -> field (a + 16 * b) 4 4 = b.
Proof.
  intros. unfold field. change (2 ^ N.of_nat 4)%N with 16%N.
  rewrite (N.mul_comm 16), N.div_add, N.div_small, N.add_0_l by lia. now apply N.mod_small.
Qed.
Lemma nibbles b : is_byte b -> (field b 0 4 < 16 /\ field b 4 4 < 16 /\ b = field b 0 4 + 16 * field b 4 4)%N.
Proof.
  unfold is_byte, field. change (2 ^ N.of_nat 0)%N with 1%N. change (2 ^ N.of_nat 4)%N with 16%N.
  intros H. rewrite N.div_1_r. repeat split; try (apply N.mod_lt; lia).
  rewrite (N.mod_small (b / 16)).
  - rewrite N.add_comm. apply N.div_mod. lia.
  - apply N.div_lt_upper_bound; lia.
Qed.
Lemma version_entry_bytes_eq e : version_entry_ok e ->
  version_entry_bytes e = [ve_alpha e + 16 * ve_update e; ve_minor e + 16 * ve_major e]%N.
Proof.
  destruct e as [ma mi up al]. unfold version_entry_ok, version_entry_bytes, u16le; simpl. intros (H1 & H2 & H3 & H4).
  replace (al + 16 * up + 256 * mi + 4096 * ma)%N with (al + 16 * up + (mi + 16 * ma) * 256)%N by lia.
  rewrite N.mod_add, N.div_add by lia. rewrite (N.div_small (al + 16 * up)) by lia.
  rewrite N.add_0_l, !N.mod_small by lia. reflexivity.
Qed.

Lemma rspec_ve_read : rspec 0 ve_read (fun bs e => version_entry_ok e /\ bs = version_entry_bytes e) never.
Proof.
  unfold ve_read. eapply rspec_weaken; [rgo| |reflexivity].
  intros bs e Hb; cbv beta. split.
  - intros (b & t & -> & b1 & b2 & a1 & E1 & (b' & -> & ->) & c & t' & -> & c1 & c2 & a2 & E2 & (c' & -> & ->) & -> & ->).
    injection E1 as <- ->. injection E2 as <- ->.
    inversion Hb as [|? ? Hx Hb1]; subst. inversion Hb1 as [|? ? Hy _]; subst.
    destruct (nibbles b Hx) as (A1 & A2 & A3). destruct (nibbles c Hy) as (B1 & B2 & B3).
    assert (OK : version_entry_ok (mkVE (field c 4 4) (field c 0 4) (field b 4 4) (field b 0 4)))
      by (unfold version_entry_ok; simpl; auto).
    split; auto. rewrite version_entry_bytes_eq by auto. simpl. rewrite <- A3, <- B3. reflexivity.
  - intros [OK ->]. rewrite version_entry_bytes_eq by auto. destruct e as [ma mi up al].
    destruct OK as (O1 & O2 & O3 & O4). simpl in *.
    eexists _, _. split; [reflexivity|]. eexists [_], _, _. split; [reflexivity|]. split; [eauto|].
    eexists _, _. split; [reflexivity|]. eexists [_], _, _. split; [reflexivity|]. split; [eauto|].
    split; auto. rewrite !low_nibble, !high_nibble by auto. reflexivity.
Qed.

Lemma rspec_version :
  rspec 0 version_parse (fun bs v => exists es, version_has v es /\ Forall version_entry_ok es /\ bs = version_body es) never.
Proof.
  unfold version_parse. eapply rspec_weaken; [rgo; [eapply rspec_fill; [apply rspec_ve_read|]] | |reflexivity].
  { bools. unfold MAX_ALLOWED_VERSIONS in *. simpl. lia. }
  intros bs v Hb; cbv beta. split.
  - intros (? & ? & [] & -> & -> & ? & ? & n & -> & -> & Hn & ? & ? & l & -> & (es & Hl & Hs & ->) & -> & ->).
    bools. unfold MAX_ALLOWED_VERSIONS in *.
    apply seq_of_map in Hs as [HF ->]. exists es. unfold version_has, version_body; simpl.
    rewrite app_nil_r. assert (Hx : n = N.of_nat (length es)) by lia. rewrite Hx. repeat split; auto; try lia.
    rewrite Nat2N.id. reflexivity.
  - intros (es & (Hl & Hn & He) & HF & ->). destruct v as [n l]; simpl in *. subst n l.
    unfold version_body. gnil. gback.
    + apply N.ltb_ge. unfold MAX_ALLOWED_VERSIONS. lia.
    + exists es. rewrite Nat2N.id. repeat split; auto. now apply seq_of_map.
    + reflexivity.
Qed.

Lemma lor_nibbles a b : (a < 16)%N -> (b < 16)%N -> N.lor a (N.shiftl b 4 mod 256) = (a + 16 * b)%N.
Proof.
  intros. rewrite N.mod_small.
  - now apply (lor_shift_add a b 4).
  - rewrite N.shiftl_mul_pow2. change (2 ^ 4)%N with 16%N. lia.
Qed.
Lemma emits_ve e o : version_entry_ok e -> emits o (ve_write e) BufferFull (version_entry_bytes e) tt.
Proof.
  intros H. rewrite version_entry_bytes_eq by auto. destruct H as (O1 & O2 & O3 & O4).
  unfold ve_write. eapply emits_eq; [emits_go| |reflexivity].
  simpl. now rewrite !lor_nibbles by auto.
Qed.

(** What write produces for a VERSION value: the count as stored, then every
    cell of the entry array. *)
Lemma emits_version v o : Forall version_entry_ok (v_entries v) ->
  let bs := [0; 0; 0]%N ++ [v_num_entries v] ++ concat (map version_entry_bytes (v_entries v)) in
  emits o (version_write_body v) BufferFull bs (o + length bs).
Proof.
  intros HF bs. unfold version_write_body. eapply emits_eq.
  - emits_go. apply (emits_iter BufferFull ve_write version_entry_bytes).
    intros x o' Hx. apply emits_ve. rewrite Forall_forall in HF. now apply HF.
  - unfold bs. simpl. now rewrite app_nil_r.
  - unfold bs. rewrite ?app_length. simpl. lia.
Qed.

(** ** CAPABILITIES *)
Lemma emits_caps o ct fl :
  emits o (put_reserved 3 ;;; put ct ;;; put_reserved 2 ;;; put_u32 fl) BufferFull
        (capabilities_layout ct fl) (o + 10).
Proof. eapply emits_eq; [emits_go|reflexivity|simpl; lia]. Qed.

Lemma rspec_get_capabilities :
  rspec 0 get_capabilities_parse
    (fun bs m => only_bits req_flag_bits (gc_flags m) /\ bs = capabilities_layout (gc_ct_exponent m) (gc_flags m)) never.
Proof.
  unfold get_capabilities_parse. eapply rspec_weaken; [rgo| |reflexivity].
  intros bs m Hb; cbv beta. split.
  - intros; gfwd. 
    match goal with H : from_bits _ _ = Some _ |- _ => apply (from_bits_only _ _ _ _ ReqFlags_all_mask) in H as [-> ?] end.
    split; auto.
  - destruct m as [ct fl]. simpl. intros [H ->]. unfold capabilities_layout. gnil. gback.
    + apply (only_bits_bound _ _ 32) in H; [exact H|]. apply bound_check. reflexivity.
    + apply (from_bits_only _ _ _ _ ReqFlags_all_mask). split; auto.
    + reflexivity.
Qed.
Lemma rspec_capabilities :
  rspec 0 capabilities_parse
    (fun bs m => only_bits rsp_flag_bits (cap_flags m) /\ bs = capabilities_layout (cap_ct_exponent m) (cap_flags m)) never.
Proof.
  unfold capabilities_parse. eapply rspec_weaken; [rgo| |reflexivity].
  intros bs m Hb; cbv beta. split.
  - intros; gfwd. 
    match goal with H : from_bits _ _ = Some _ |- _ => apply (from_bits_only _ _ _ _ RspFlags_all_mask) in H as [-> ?] end.
    split; auto.
  - destruct m as [ct fl]. simpl. intros [H ->]. unfold capabilities_layout. gnil. gback.
    + apply (only_bits_bound _ _ 32) in H; [exact H|]. apply bound_check. reflexivity.
    + apply (from_bits_only _ _ _ _ RspFlags_all_mask). split; auto.
    + reflexivity.
Qed.
End Gram.
