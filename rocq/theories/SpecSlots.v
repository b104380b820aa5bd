(** Specification for C60: what of the certificate slots a call can depend on. *)
From Verif Require Import Base Config Encoding MsgCertificates Crypto Responder SpecWire SpecResponder.

Section SpecSlots.
Context {cfg : Config} {cr : Crypto}.
(** The same slots are filled. *)
Definition filled (slots : list (option FilledSlot)) (i : nat) : Prop := exists s, nth_error slots i = Some (Some s).
Definition same_places (slots slots' : list (option FilledSlot)) : Prop :=
  length slots = length slots' /\ forall i, filled slots i <-> filled slots' i.
(** Slot [i] holds the same certificate chain, or is empty in both. *)
Definition same_chain (slots slots' : list (option FilledSlot)) (i : nat) : Prop := slot_chain slots i = slot_chain slots' i.
(** ... and the same signing key. *)
Definition slot_key (slots : list (option FilledSlot)) (i : nat) : option Signer :=
  match nth_error slots i with Some (Some s) => Some (fs_signer s) | _ => None end.
Definition same_key (slots slots' : list (option FilledSlot)) (i : nat) : Prop := slot_key slots i = slot_key slots' i.

(** A call with a request whose code is not among [cs]. *)
Definition avoids (cs : list N) (c : call) : Prop :=
  match c with CallHandle _ req _ => ~ In (code req) cs | CallReset => True end.
(** A call about slot [i] or about no slot: not GET_DIGESTS, and a
    GET_CERTIFICATE or CHALLENGE has [i] in its slot byte. *)
Definition only_slot (i : N) (c : call) : Prop :=
  match c with
  | CallHandle _ req _ => code req <> 0x81%N /\ (In (code req) [0x82; 0x83]%N -> nth 2 req 0%N = i)
  | CallReset => True
  end.
(** Part of DIGESTS for slot [i]: past header, reserved byte and mask, after the
    digests of the filled slots below [i]. *)
Definition is_filled (slots : list (option FilledSlot)) (i : nat) : bool :=
  match nth_error slots i with Some (Some _) => true | _ => false end.
Definition digest_part (slots : list (option FilledSlot)) (size i : nat) (out : list N) : list N :=
  firstn size (skipn (4 + size * length (filter (is_filled slots) (seq 0 i))) out).
End SpecSlots.
