(** The loops README.adoc tells the user to write, as programs around the API. *)
From Verif Require Import Base Config Transcript Crypto Responder Requester.

Section Loops.
Context {cfg : Config} {cr : Crypto}.

(** * The requester's loop (README.adoc:129-147) *)
(** How it ends. *)
Inductive loop_end :=
| LComplete (Q : Requester)                                   (** handle_msg returned true *)
| LNoRequest (e : RequesterError)                             (** next_request(..)? returned early *)
| LNoResponse (req : list N)                                  (** transport.send(..)? or recv(..)? did *)
| LRefused (req rsp : list N) (e : RequesterError)            (** handle_msg(..)? did *)
| LAskPanicked (p : panic)                                    (** next_request panicked *)
| LHearPanicked (req rsp : list N) (p : panic)                (** handle_msg panicked *)
| LRunning (Q : Requester).                                   (** not at the end after the given number of rounds *)

(** README.adoc:139-147.  [peer] is what the transport delivers for a request,
    given all exchanges before; [supply k] is the randomness consumed by the call
    of next_request in round k and the contents of write_buf before it.  The
    result: the exchanges completed, and how the loop ended. *)
Fixpoint init_loop (peer : list (list N * list N) -> list N -> option (list N)) (supply : nat -> list N * list N)
    (n : nat) (ex : list (list N * list N)) (Q : Requester) : list (list N * list N) * loop_end :=
  match n with
  | O => (ex, LRunning Q)
  | S n =>
    let '(fresh, buf) := supply (length ex) in
    match requester_next_request Q fresh buf with
    | (Err e, _, _) => (ex, LNoRequest e)
    | (Panic p, _, _) => (ex, LAskPanicked p)
    | (Ok req, _, Q1) =>
      match peer ex req with
      | None => (ex, LNoResponse req)
      | Some rsp =>
        match requester_handle_msg Q1 rsp with
        | (Err e, _) => (ex, LRefused req rsp e)
        | (Panic p, _) => (ex, LHearPanicked req rsp p)
        | (Ok true, Q2) => (ex ++ [(req, rsp)], LComplete Q2)
        | (Ok false, Q2) => init_loop peer supply n (ex ++ [(req, rsp)]) Q2
        end
      end
    end
  end.

(** * The responder's loop (README.adoc:218-233) *)
(** The state after the requests [reqs] were served, unless the loop has ended;
    [supply k] is what the call in round k consumes.  Simplified: the program in
    README.adoc hands [&req_buf] (the whole buffer) to handle_msg; here it is
    [request], the bytes received (what the other does is C69_readme_loop). *)
Fixpoint serve_loop (supply : nat -> Rnd * list N) (k : nat) (R : Responder) (reqs : list (list N)) : option Responder :=
  match reqs with
  | [] => Some R
  | req :: reqs =>
    let '(rnd, buf) := supply k in
    match responder_handle_msg R rnd req buf with
    | (Replied _ (Ok _), _, R') => serve_loop supply (S k) R' reqs
    | _ => None
    end
  end.
(** What a peer sees of that loop: the response is sent before the result is
    looked at; afterwards, or after a panic, there is no response any more. *)
Definition serving_peer (slots : list (option FilledSlot)) (supply : nat -> Rnd * list N)
    (ex : list (list N * list N)) (req : list N) : option (list N) :=
  match serve_loop supply 0 (responder_new slots) (map fst ex) with
  | None => None
  | Some R =>
    let '(rnd, buf) := supply (length ex) in
    match responder_handle_msg R rnd req buf with
    | (Replied out _, _, _) => Some out
    | (Panicked _, _, _) => None
    end
  end.
End Loops.
