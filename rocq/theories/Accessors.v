(** Model of the accessors of both endpoints ([state], [transcript], [slots]). *)
From Verif Require Import Base Config Transcript Crypto Responder Requester.

(** src/responder.rs:193-195: [self.state.as_ref().unwrap()] *)
Definition responder_state (R : Responder) : res Empty_set RspStates :=
  match rsp_state R with Some st => Ok st | None => Panic PUnwrap end.
(** src/responder.rs:197-199 *)
Definition responder_transcript (R : Responder) : Transcript := rsp_transcript R.
(** src/responder.rs:201-203 *)
Definition responder_slots (R : Responder) : list (option FilledSlot) := rsp_slots R.
(** src/requester.rs:158-160; [state] (154-156) is [requester_state] of Requester.v. *)
Definition requester_transcript (R : Requester) : Transcript := req_transcript R.

(** src/requester.rs:51-63, 69-71: the requester with its own slots, which
    Requester.v leaves out: no other method names [self.data.slots]. *)
Record RequesterInit := mkRequesterInit { ri_slots : list (option FilledSlot); ri_data : Requester }.
(** src/requester.rs:87-100 *)
Definition requester_init_new {cfg : Config} (root_cert : list N) (slots : list (option FilledSlot)) : RequesterInit :=
  mkRequesterInit slots (requester_new root_cert).
(** src/requester.rs:108-117 *)
Definition requester_init_next_request {cfg : Config} {cr : Crypto} (I : RequesterInit) (fresh buf : list N)
  : res RequesterError (list N) * list N * RequesterInit :=
  let '(r, buf', R') := requester_next_request (ri_data I) fresh buf in (r, buf', mkRequesterInit (ri_slots I) R').
(** src/requester.rs:124-146 *)
Definition requester_init_handle_msg {cfg : Config} {cr : Crypto} (I : RequesterInit) (rsp : list N) : res RequesterError bool * RequesterInit :=
  let '(r, R') := requester_handle_msg (ri_data I) rsp in (r, mkRequesterInit (ri_slots I) R').
(** src/requester.rs:162-164 *)
Definition requester_slots (I : RequesterInit) : list (option FilledSlot) := ri_slots I.
