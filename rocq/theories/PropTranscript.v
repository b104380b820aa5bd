(** C06: the transcript is a bounded append-only log. *)
From Verif Require Import Base BaseLemmas Config Encoding Transcript.

Section TranscriptProp.
Context {cfg : Config}.

(** Calls a user can make. *)
Inductive tcall := CExtend (bs : list N) | CClear.

(** Run calls on the transcript of the code, collecting the results of extend. *)
Fixpoint t_calls (cs : list tcall) (t : Transcript) : list (res BufferFullError unit) * Transcript :=
  match cs with
  | [] => ([], t)
  | CExtend bs :: r => let '(x, t') := t_extend bs t in let '(xs, t2) := t_calls r t' in (x :: xs, t2)
  | CClear :: r => t_calls r (t_clear t)
  end.

(** Specification: a list of bytes of bounded length. *)
Fixpoint log_calls (cs : list tcall) (log : list N) : list (res BufferFullError unit) * list N :=
  match cs with
  | [] => ([], log)
  | CExtend bs :: r =>
    if length log + length bs <=? TRANSCRIPT_SIZE
    then let '(xs, l) := log_calls r (log ++ bs) in (Ok tt :: xs, l)
    else let '(xs, l) := log_calls r log in (Err BufferFull :: xs, l)
  | CClear :: r => log_calls r []
  end.

Definition t_wf (t : Transcript) : Prop := length (t_buf t) = TRANSCRIPT_SIZE /\ t_offset t <= TRANSCRIPT_SIZE.

Lemma t_new_wf : t_wf transcript_new.
Proof. split; simpl; [apply repeat_length|lia]. Qed.
Lemma t_get_length t : t_wf t -> length (t_get t) = t_len t.
Proof. intros [H1 H2]. unfold t_get, t_len. rewrite firstn_length. lia. Qed.

Lemma t_extend_spec t bs : t_wf t ->
  (t_len t + length bs <= TRANSCRIPT_SIZE ->
   exists t', t_extend bs t = (Ok tt, t') /\ t_wf t' /\ t_get t' = t_get t ++ bs /\ t_len t' = t_len t + length bs) /\
  (TRANSCRIPT_SIZE < t_len t + length bs -> t_extend bs t = (Err BufferFull, t)).
Proof.
  intros [H1 H2]. unfold t_extend, t_len, t_get in *. rewrite H1. split; intros H.
  - destruct (Nat.ltb_spec TRANSCRIPT_SIZE (t_offset t + length bs)); [lia|].
    eexists. split; [reflexivity|]. unfold t_wf; simpl. repeat split; try lia.
    + rewrite !app_length, firstn_length, skipn_length. lia.
    + rewrite app_assoc, firstn_app, app_length, firstn_length.
      replace (t_offset t + length bs - _) with 0 by lia. rewrite firstn_O, app_nil_r.
      apply firstn_all2. rewrite app_length, firstn_length. lia.
  - destruct (Nat.ltb_spec TRANSCRIPT_SIZE (t_offset t + length bs)); [reflexivity|lia].
Qed.
Lemma t_clear_spec t : t_wf t -> t_wf (t_clear t) /\ t_get (t_clear t) = [] /\ t_len (t_clear t) = 0.
Proof. intros [H1 H2]. unfold t_wf, t_clear, t_get, t_len; simpl. repeat split; auto; lia. Qed.

Lemma t_calls_spec cs : forall t, t_wf t ->
  let '(rs, t') := t_calls cs t in
  t_wf t' /\ log_calls cs (t_get t) = (rs, t_get t').
Proof.
  induction cs as [|[bs|] cs IH]; intros t Hw; simpl.
  - auto.
  - destruct (t_extend_spec t bs Hw) as [H1 H2]. rewrite (t_get_length t Hw).
    destruct (Nat.leb_spec (t_len t + length bs) TRANSCRIPT_SIZE) as [L|L].
    + destruct (H1 L) as (t' & -> & Hw' & Hg & _). specialize (IH t' Hw').
      destruct (t_calls cs t') as [xs t2]. rewrite Hg in IH. destruct IH as [Hw2 ->]. auto.
    + rewrite (H2 L). specialize (IH t Hw). destruct (t_calls cs t) as [xs t2].
      destruct IH as [Hw2 ->]. auto.
  - destruct (t_clear_spec t Hw) as (Hw' & Hg & _). specialize (IH _ Hw').
    destruct (t_calls cs (t_clear t)) as [xs t2]. rewrite Hg in IH. exact IH.
Qed.

(** Every call sequence on a new transcript gives the results of the bounded log,
    and afterwards [get()] is the log and [len()] its length. *)
Theorem C06_transcript_is_bounded_log cs rs t :
  t_calls cs transcript_new = (rs, t) ->
  log_calls cs [] = (rs, t_get t) /\ t_len t = length (t_get t) /\ t_len t <= TRANSCRIPT_SIZE.
Proof.
  intros E. pose proof (t_calls_spec cs transcript_new t_new_wf) as H. rewrite E in H. destruct H as [Hw H].
  split; [exact H|]. split; [symmetry; now apply t_get_length|apply Hw].
Qed.

(** A failing extend leaves the whole transcript object as it was. *)
Theorem C06_failed_extend_changes_nothing cs rs t bs :
  t_calls cs transcript_new = (rs, t) -> TRANSCRIPT_SIZE < t_len t + length bs ->
  t_extend bs t = (Err BufferFull, t).
Proof.
  intros E H. pose proof (t_calls_spec cs transcript_new t_new_wf) as Hs. rewrite E in Hs.
  now apply (t_extend_spec t bs).
Qed.
End TranscriptProp.

(** A log of 5 bytes: two extends fit, a third does not, clear frees the space. *)
Definition cfg_transcript5 : Config :=
  Build_Config 1 100 1 5 32 64 16 2 2 64 [] [] true true.
Example C06_nonvacuous :
  let '(rs, t) := t_calls [CExtend [1; 2; 3]; CExtend [4; 5]; CExtend [6]; CClear; CExtend [7; 8]]%N
                           (@transcript_new cfg_transcript5) in
  rs = [Ok tt; Ok tt; Err BufferFull; Ok tt] /\ t_get t = [7; 8]%N.
Proof. vm_compute. split; reflexivity. Qed.

Print Assumptions C06_transcript_is_bounded_log.
Print Assumptions C06_failed_extend_changes_nothing.
