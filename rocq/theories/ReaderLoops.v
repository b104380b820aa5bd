(** Rules for array-filling loops, byte spans, and running a parser on a buffer. *)
From Verif Require Import Base BaseLemmas Config Encoding MsgCommon ReaderLogic ReaderBits.

(** [bs] is the concatenation of encodings of the elements of [xs], in order. *)
Inductive seq_of {A} (P : list N -> A -> Prop) : list N -> list A -> Prop :=
| seq_nil : seq_of P [] []
| seq_cons b x bs xs : P b x -> seq_of P bs xs -> seq_of P (b ++ bs) (x :: xs).

Lemma seq_of_iff {A} (P Q : list N -> A -> Prop) bs xs :
  (forall b x, P b x <-> Q b x) -> seq_of P bs xs <-> seq_of Q bs xs.
Proof.
  intros H. split; induction 1; constructor; auto; now apply H.
Qed.

Lemma seq_of_iff_bytes {A} (P Q : list N -> A -> Prop) bs xs : bytes bs ->
  (forall b x, bytes b -> (P b x <-> Q b x)) -> seq_of P bs xs <-> seq_of Q bs xs.
Proof.
  intros Hb H. split; induction 1; constructor; apply bytes_app in Hb as [? ?]; auto; now apply H.
Qed.

Lemma seq_of_map {A} (enc : A -> list N) (wf : A -> Prop) bs xs :
  seq_of (fun b x => wf x /\ b = enc x) bs xs <-> Forall wf xs /\ bs = concat (map enc xs).
Proof.
  split.
  - induction 1 as [|b x bs xs [Hw ->] _ [IH1 ->]]; simpl; auto.
  - intros [H ->]. induction H; simpl; constructor; auto.
Qed.

Lemma upd_app_r {A} (a b : list A) v x : upd (a ++ v :: b) (length a) x = a ++ x :: b.
Proof. induction a; simpl; congruence. Qed.

Lemma rspec_fill_gen {E A} (d : A) (rdm : M Reader E A) P PP :
  rspec 0 rdm P PP ->
  forall n (xs : list A) extra, 
  rspec 0 (fill n (length xs) (xs ++ repeat d extra) rdm)
    (fun bs l => exists ys, length ys = n /\ n <= extra /\ seq_of P bs ys
                            /\ l = xs ++ ys ++ repeat d (extra - n))
    (fun inp => exists bs rest ys, inp = bs ++ rest /\ seq_of P bs ys /\ length ys < n /\ length ys <= extra /\
         (PP rest \/ (length ys = extra /\ exists b x rest', rest = b ++ rest' /\ P b x))).
Proof.
  intros H. induction n as [|n IH]; intros xs extra; cbn [fill].
  - eapply rspec_weaken; [apply rspec_ret| |].
    + intros bs l _. split.
      * intros [-> ->]. exists []. rewrite Nat.sub_0_r. repeat split; auto; [lia|constructor].
      * intros (ys & Hl & _ & Hs & ->). destruct ys; [|discriminate]. inversion Hs; subst.
        rewrite Nat.sub_0_r. auto.
    + intros inp _. unfold never. split; [tauto|]. intros (bs & rest & ys & _ & _ & Hl & _). lia.
  - rewrite app_length, repeat_length.
    destruct (Nat.ltb_spec (length xs) (length xs + extra)) as [L|L].
    + destruct extra as [|extra]; [lia|].
      eapply rspec_weaken; [eapply rspec_bind; [apply H|]| |].
      * intros a bs _ _. cbn [repeat]. rewrite upd_app_r.
        change (xs ++ a :: repeat d extra) with (xs ++ [a] ++ repeat d extra).
        rewrite app_assoc. replace (S (length xs)) with (length (xs ++ [a])) by (rewrite app_length; simpl; lia).
        apply (IH (xs ++ [a]) extra).
      * intros bs l _; cbv beta. split.
        -- intros (b1 & b2 & a & -> & Ha & ys & Hl & Hle & Hs & ->). exists (a :: ys). simpl.
           repeat split; auto; [lia|constructor; auto|]. now rewrite <- app_assoc.
        -- intros (ys & Hl & Hle & Hs & ->). inversion Hs; subst; [discriminate|].
           exists b, bs0, x. repeat split; auto. exists xs0. simpl in *.
           repeat split; try lia; auto. now rewrite <- app_assoc.
      * intros inp _; cbv beta. split.
        -- intros [Hp | (b1 & rest & a & -> & Ha & bs & rest' & ys & -> & Hs & Hl & Hle & Hor)].
           ++ exists [], inp, []. simpl. repeat split; auto; try lia. constructor.
           ++ exists (b1 ++ bs), rest', (a :: ys). simpl. rewrite app_assoc.
              repeat split; auto; try lia; [constructor; auto|].
              destruct Hor as [Hor|[Ho1 Ho2]]; auto.
        -- intros (bs & rest & ys & -> & Hs & Hl & Hle & Hor). inversion Hs; subst; simpl in *.
           ++ left. destruct Hor as [Hor|[Ho1 _]]; auto. lia.
           ++ right. exists b, (bs0 ++ rest), x. rewrite <- app_assoc. repeat split; auto.
              exists bs0, rest, xs0. repeat split; auto; try lia.
              destruct Hor as [Hor|[Ho1 Ho2]]; auto.
    + assert (extra = 0) by lia. subst extra.
      eapply rspec_weaken; [eapply rspec_bind; [apply H|intros; apply rspec_pnc]| |].
      * intros bs l _; cbv beta. split.
        -- intros (b1 & b2 & a & _ & _ & []).
        -- intros (ys & Hl & Hle & _). lia.
      * intros inp _; cbv beta. split.
        -- intros Hor. exists [], inp, []. simpl. repeat split; auto; try lia; [constructor|].
           destruct Hor as [Hp|(b1 & rest & a & -> & Ha & _)]; [auto|right]. split; auto. eauto 6.
        -- intros (bs & rest & ys & -> & Hs & Hl & Hle & Hor). destruct ys; [|simpl in Hle; lia].
           inversion Hs; subst. simpl. destruct Hor as [Hor|[_ (b & x & rest' & -> & Hx)]]; auto.
           right. exists b, rest', x. auto.
Qed.

(** The usual case: the count is within the array and elements cannot panic. *)
Lemma rspec_fill {E A} (d : A) (rdm : M Reader E A) P n K :
  rspec 0 rdm P never -> n <= K ->
  rspec 0 (fill n 0 (repeat d K) rdm)
    (fun bs l => exists ys, length ys = n /\ seq_of P bs ys /\ l = ys ++ repeat d (K - n)) never.
Proof.
  intros H HK. eapply rspec_weaken; [apply (rspec_fill_gen d rdm P never H n [] K)| |].
  - intros bs l _; simpl. split.
    + intros (ys & ? & ? & ? & ?). eauto.
    + intros (ys & ? & ? & ?). eauto 6.
  - intros inp _. unfold never. split; [|tauto].
    intros (bs & rest & ys & _ & _ & Hl & Hle & [[]|[Hl2 _]]). lia.
Qed.

(** [let offset = r.byte_offset(); ...; r.byte_offset() - offset]. *)
Lemma rspec_span {E A B} (m : M Reader E A) (k : nat -> A -> M Reader E B) P PP Q QQ :
  rspec 0 m P PP -> (forall n a, rspec 0 (k n a) (Q n a) (QQ n a)) ->
  rspec 0 (offset <- gets r_byte ;; a <- m ;; now <- gets r_byte ;; k (now - offset) a)
    (fun bs b => exists b1 b2 a, bs = b1 ++ b2 /\ P b1 a /\ Q (length b1) a b2 b)
    (fun inp => PP inp \/ exists b1 rest a, inp = b1 ++ rest /\ P b1 a /\ QQ (length b1) a rest).
Proof.
  intros Hm Hk pre inp Hb Hj. destruct (Hm pre inp Hb Hj) as (H1 & H2 & H3). unfold bind, gets.
  change (r_byte (rd pre inp 0)) with (length pre).
  assert (HB : forall b1, r_byte (rd (pre ++ b1) [] 0) - length pre = length b1).
  { intros b1. unfold rd; simpl. rewrite app_length. lia. }
  rsplit.
  - intros bs rest b E1 (b1 & b2 & a & -> & Ha & Hq).
    subst inp. rewrite (H1 b1 (b2 ++ rest) a) by (auto; now rewrite app_assoc).
    apply bytes_app in Hb as [Hb1 Hb3]. apply bytes_app in Hb1 as [Hb1 Hb2].
    change (r_byte (rd (pre ++ b1) (b2 ++ rest) 0)) with (r_byte (rd (pre ++ b1) [] 0)). rewrite HB.
    destruct (Hk (length b1) a (pre ++ b1) (b2 ++ rest)) as (K1 & _ & _); [now apply bytes_app|lia|].
    rewrite (K1 b2 rest b eq_refl Hq). now rewrite <- app_assoc.
  - intros b r Hr. destruct (m (rd pre inp 0)) as [[x|e|p] s]; try discriminate.
    destruct (H2 x s eq_refl) as (b1 & rest1 & E1 & Hx & _).
    pose proof (H1 b1 rest1 x E1 Hx) as E2; injection E2 as ->; subst inp.
    apply bytes_app in Hb as [Hb1 Hb2].
    change (r_byte (rd (pre ++ b1) rest1 0)) with (r_byte (rd (pre ++ b1) [] 0)) in Hr. rewrite HB in Hr.
    destruct (Hk (length b1) x (pre ++ b1) rest1 Hb2) as (_ & K2 & _); [lia|].
    destruct (K2 b r Hr) as (b2 & rest & -> & Hq & _). exists (b1 ++ b2), rest.
    rewrite <- app_assoc. split; [auto|]. split; [exists b1, b2, x; auto|lia].
  - intros (p & r & Hr). destruct (m (rd pre inp 0)) as [[x|e|q] s]; try discriminate.
    + right. destruct (H2 x s eq_refl) as (b1 & rest1 & E1 & Hx & _).
      pose proof (H1 b1 rest1 x E1 Hx) as E2; injection E2 as ->; subst inp.
      apply bytes_app in Hb as [Hb1 Hb2].
      change (r_byte (rd (pre ++ b1) rest1 0)) with (r_byte (rd (pre ++ b1) [] 0)) in Hr. rewrite HB in Hr.
      destruct (Hk (length b1) x (pre ++ b1) rest1 Hb2) as (_ & _ & K3); [lia|].
      exists b1, rest1, x. repeat split; auto. apply K3. eauto.
    + left. apply H3. eauto.
  - intros [Hp | (b1 & rest & a & E1 & Ha & Hq)].
    + apply H3 in Hp as (p & r & ->). eauto.
    + subst inp. rewrite (H1 b1 rest a eq_refl Ha).
      apply bytes_app in Hb as [Hb1 Hb2].
      change (r_byte (rd (pre ++ b1) rest 0)) with (r_byte (rd (pre ++ b1) [] 0)). rewrite HB.
      destruct (Hk (length b1) a (pre ++ b1) rest Hb2) as (_ & _ & K3); [lia|]. now apply K3.
Qed.

(** * Running a parser on a whole buffer *)
Section Run.
Context {E A : Type} (m : M Reader E A) (P : list N -> A -> Prop) (PP : list N -> Prop).
Hypothesis H : rspec 0 m P PP.

Lemma rd_new buf : reader_new buf = rd [] buf 0.
Proof. reflexivity. Qed.

Lemma run_ok bs rest a : bytes (bs ++ rest) -> P bs a -> run_parser m (bs ++ rest) = Ok a.
Proof.
  intros Hb Ha. unfold run_parser. rewrite rd_new.
  destruct (H [] (bs ++ rest) Hb) as (H1 & _ & _); [lia|]. now rewrite (H1 bs rest a).
Qed.
Lemma run_inv buf a : bytes buf -> run_parser m buf = Ok a -> exists bs rest, buf = bs ++ rest /\ P bs a.
Proof.
  intros Hb. unfold run_parser. rewrite rd_new.
  destruct (H [] buf Hb) as (_ & H2 & _); [lia|].
  destruct (m (rd [] buf 0)) as [r s]. simpl. intros ->.
  destruct (H2 a s eq_refl) as (bs & rest & ? & ? & _). eauto.
Qed.
Lemma run_iff buf a : bytes buf -> run_parser m buf = Ok a <-> exists bs rest, buf = bs ++ rest /\ P bs a.
Proof. intros Hb. split; [now apply run_inv|]. intros (bs & rest & -> & Ha). now apply run_ok. Qed.
Lemma run_panic buf : bytes buf -> (exists p, run_parser m buf = Panic p) <-> PP buf.
Proof.
  intros Hb. unfold run_parser. rewrite rd_new.
  destruct (H [] buf Hb) as (_ & _ & H3); [lia|]. rewrite <- H3. split.
  - destruct (m (rd [] buf 0)) as [r s]. simpl. intros (p & ->). eauto.
  - intros (p & r & ->). simpl. eauto.
Qed.
Lemma run_prefix buf ext a : bytes (buf ++ ext) -> run_parser m buf = Ok a -> run_parser m (buf ++ ext) = Ok a.
Proof.
  intros Hb Hr. apply run_inv in Hr as (bs & rest & -> & Ha).
  - rewrite <- app_assoc in *. now apply run_ok.
  - now apply bytes_app in Hb.
Qed.
End Run.

Lemma run_nopanic {E A} (m : M Reader E A) P buf p : rspec 0 m P never -> bytes buf -> run_parser m buf <> Panic p.
Proof. intros H Hb Hp. apply (proj1 (run_panic m P never H buf Hb)). eauto. Qed.
