(** Model of src/transcript.rs. *)
From Verif Require Import Base Config Encoding.

Section Transcript.
Context {cfg : Config}.

(** src/transcript.rs:15-18: the whole TRANSCRIPT_SIZE byte array and the offset. *)
Record Transcript := mkTranscript { t_buf : list N; t_offset : nat }.

(** src/transcript.rs:21-23 *)
Definition transcript_new : Transcript := mkTranscript (repeat 0%N TRANSCRIPT_SIZE) 0.

(** src/transcript.rs:26-35.  The usize addition cannot overflow: both summands
    are slice lengths. *)
Definition t_extend (bs : list N) : M Transcript BufferFullError unit := fun t =>
  let fin := t_offset t + length bs in
  if length (t_buf t) <? fin then (Err BufferFull, t)
  else (Ok tt, mkTranscript (firstn (t_offset t) (t_buf t) ++ bs ++ skipn fin (t_buf t)) fin).

(** src/transcript.rs:38-40 *)
Definition t_clear (t : Transcript) : Transcript := mkTranscript (t_buf t) 0.

(** src/transcript.rs:43-45.  [&self.buf[0..self.offset]]; the offset never
    exceeds the array length (proved in C06), so the slice never panics. *)
Definition t_get (t : Transcript) : list N := firstn (t_offset t) (t_buf t).

(** src/transcript.rs:48-50 *)
Definition t_len (t : Transcript) : nat := t_offset t.

(** derived PartialEq, src/transcript.rs:14: fields compared in order. *)
Definition t_eqb (a b : Transcript) : bool :=
  list_eqb (t_buf a) (t_buf b) && (t_offset a =? t_offset b).

End Transcript.
