(** Bridges from the grammar lemmas to the specification predicates. *)
From Verif Require Import Base BaseLemmas Config Encoding MsgCommon SpecWire WriterLogic ReaderLogic ReaderLoops.

Lemma bytes_zeros n : bytes (zeros n).
Proof. unfold zeros. apply Forall_forall. intros x Hx. apply repeat_spec in Hx as ->. red; lia. Qed.
Lemma bytes_u16le x : bytes (u16le x).
Proof. unfold u16le. repeat constructor; apply N.mod_lt; lia. Qed.
Lemma bytes_u24le x : bytes (u24le x).
Proof. unfold u24le. repeat constructor; apply N.mod_lt; lia. Qed.
Lemma bytes_u32le x : bytes (u32le x).
Proof. unfold u32le. repeat constructor; apply N.mod_lt; lia. Qed.
Lemma bytes_check l : forallb (fun b => b <? 256)%N l = true -> bytes l.
Proof. intros H. apply Forall_forall. intros x Hx. rewrite forallb_forall in H. apply H in Hx. red; lia. Qed.
Lemma bytes_one x : is_byte x -> bytes [x].
Proof. intros; repeat constructor; auto. Qed.
Lemma bytes_concat l : Forall bytes l -> bytes (concat l).
Proof. induction 1; simpl; [constructor|]. now apply bytes_app. Qed.
Lemma bytes_concat_map {A} (f : A -> list N) l : Forall (fun x => bytes (f x)) l -> bytes (concat (map f l)).
Proof. induction 1; simpl; [constructor|]. now apply bytes_app. Qed.
(** Split a [bytes] goal along the layout. *)
Ltac bts := repeat match goal with
  | |- bytes (_ ++ _) => apply bytes_app; split
  | |- bytes (zeros _) => apply bytes_zeros
  | |- bytes (u16le _) => apply bytes_u16le
  | |- bytes (u24le _) => apply bytes_u24le
  | |- bytes (u32le _) => apply bytes_u32le
  | |- bytes [] => constructor
  | |- bytes (?a :: ?b :: ?r) => change (bytes ([a] ++ (b :: r)))
  | |- bytes [_] => apply bytes_one
  | |- bytes (concat (map _ _)) => apply bytes_concat_map
  | H : ?P |- ?P => exact H
  end.

(** Use a fresh Writer over [buf] and look at the buffer afterwards. *)
Definition write_on {E} (m : M Writer E nat) (buf : list N) : res E nat * list N :=
  let '(r, w) := m (writer_new buf) in (r, w_buf w).

Section Tools.
Context {cfg : Config}.

Lemma write_on_of {E} (m : M Writer E nat) full bs :
  emits 0 m full bs (length bs) -> writes_exactly (write_on m) (fun e => e = full) bs.
Proof.
  intros H buf. destruct (H (writer_new buf)) as [Ea Eb]; [unfold w_wf; simpl; lia|reflexivity|].
  simpl in Ea, Eb. unfold write_on. split; intros L.
  - rewrite Ea by lia. reflexivity.
  - destruct Eb as (k & K1 & K2 & ->); [lia|]. exists full, k. split; [auto|]. split; [lia|].
    unfold w_app; simpl. f_equal. rewrite firstn_length. now replace (Nat.min k (length bs)) with k by lia.
Qed.

Lemma writes_of {E} id (from : BufferFullError -> E) body bs :
  emits 2 body (from BufferFull) bs (2 + length bs) ->
  writes_exactly (write_msg id from body) (fun e => e = from BufferFull) ([SPDM_VERSION id; SPDM_CODE id] ++ bs).
Proof.
  intros H buf. destruct (write_msg_spec id from body bs buf H) as [H1 H2]. split; [exact H1|].
  intros Hb. destruct (H2 Hb) as (k & Hk & E1). eauto.
Qed.

Lemma writes_ofS {E} id (from : BufferFullError -> E) body (F : E -> Prop) bs :
  F (from BufferFull) -> emitsS 2 body F bs (2 + length bs) ->
  writes_exactly (write_msg id from body) F ([SPDM_VERSION id; SPDM_CODE id] ++ bs).
Proof. intros HF H buf. exact (write_msg_specS id from body F bs buf HF H). Qed.

(** A successful exact write produced the encoding. *)
Lemma writes_inv {E} (wr : list N -> res E nat * list N) full enc buf n out :
  writes_exactly wr full enc -> wr buf = (Ok n, out) ->
  n = length enc /\ length enc <= length buf /\ out = enc ++ skipn (length enc) buf.
Proof.
  intros H Hw. destruct (H buf) as [H1 H2].
  destruct (Nat.le_gt_cases (length enc) (length buf)) as [L|L].
  - rewrite (H1 L) in Hw. injection Hw as <- <-. auto.
  - destruct (H2 L) as (e & k & _ & _ & E1). rewrite E1 in Hw. discriminate.
Qed.

Lemma bytes_skipn n l : bytes l -> bytes (skipn n l).
Proof. intros H. rewrite <- (firstn_skipn n l) in H. now apply bytes_app in H. Qed.
Lemma bytes_firstn n l : bytes l -> bytes (firstn n l).
Proof. intros H. rewrite <- (firstn_skipn n l) in H. now apply bytes_app in H. Qed.

Lemma round_trips_of {E F A} (wr : list N -> res E nat * list N) full v c bs (m : M Reader F A) P PP a :
  writes_exactly wr full ([v; c] ++ bs) -> rspec 0 m P PP -> bytes bs -> P bs a ->
  round_trips wr (run_parser m) a.
Proof.
  intros Hw Hm Hb HP buf n out Hbuf Hr.
  destruct (writes_inv _ _ _ _ _ _ Hw Hr) as (-> & Hl & ->).
  rewrite firstn_app, Nat.sub_diag, firstn_all, firstn_O, app_nil_r. simpl skipn. split.
  - rewrite <- (app_nil_r bs). eapply run_ok; eauto. now rewrite app_nil_r.
  - eapply run_ok; eauto. apply bytes_app. split; auto.
    exact (bytes_skipn (S (S (length bs))) buf Hbuf).
Qed.

Lemma parses_of {F A} (m : M Reader F A) P PP : rspec 0 m P PP -> parses_exactly (run_parser m) P.
Proof. intros H buf Hb a. apply (run_iff m P PP H buf a Hb). Qed.

Lemma nopanic_of {F A} (m : M Reader F A) P : rspec 0 m P never -> never_panics (run_parser m).
Proof. intros H buf Hb p. eapply run_nopanic; eauto. Qed.
End Tools.
