(** A concrete crypto instance, slot configuration and protocol run for the
    non-vacuity examples.  Nothing here is used by a general theorem. *)
From Verif Require Import Base Config Encoding MsgCommon MsgCertificates Transcript Crypto Responder Requester Sample.
#[local] Existing Instance sample_cfg.

(** A toy hash of the right sizes, and a toy signature scheme: the 64 signature
    bytes are all [toy_key] of the signed digest. *)
Definition toy_hash (h : N) (data : list N) : list N :=
  repeat (fold_left N.add data 7 mod 256)%N
         (if (h =? 1)%N then 32 else if (h =? 2)%N then 48 else 64).
Definition toy_key (msg : list N) : N := (1 + nth 0 msg 0 mod 100)%N.
Definition toy_signer : Signer := fun _ msg => Ok (repeat (toy_key msg) 64).
Definition sample_crypto : Crypto :=
  Build_Crypto ProviderRing toy_hash (fun _ => true) (fun _ => true) (fun _ _ _ _ _ => true)
               (fun _ _ msg der => (nth 4 der 0 =? toy_key msg)%N).
#[local] Existing Instance sample_crypto.

(** Two intermediates and a leaf in DER framing; slots 0 and 3 are filled. *)
Definition sample_chain (tag : N) : CertificateChain :=
  mkChain (repeat tag 32) [0x30; 2; tag; 9]%N [[0x30; 3; 1; tag; 3]; [0x30; 0]]%N.
Definition sample_slot (tag : N) : FilledSlot := mkSlot 0x10 1 (sample_chain tag) toy_signer.
Definition sample_slots : list (option FilledSlot) := [Some (sample_slot 5); None; None; Some (sample_slot 6); None].
Definition sample_rnd (k : N) : Rnd := mkRnd (repeat k 32) [].
Definition big_buf : list N := repeat 0xAA%N 1200.

(** One exchange of a faithful transport. *)
Definition exchange (k : N) (q : Requester) (r : Responder)
  : option (list N * list N * bool * Requester * Responder) :=
  match requester_next_request q (repeat (k + 1)%N 32) big_buf with
  | (Ok req, _, q1) =>
    match responder_handle_msg r (sample_rnd k) req big_buf with
    | (Replied out (Ok tt), _, r1) =>
      match requester_handle_msg q1 out with
      | (Ok b, q2) => Some (req, out, b, q2, r1)
      | _ => None
      end
    | _ => None
    end
  | _ => None
  end.
Fixpoint exchanges (n : nat) (k : N) (q : Requester) (r : Responder)
  : list (list N * list N) * bool * Requester * Responder :=
  match n with
  | O => ([], false, q, r)
  | S n => match exchange k q r with
           | Some (req, out, b, q1, r1) =>
             let '(l, b2, q2, r2) := exchanges n (k + 1) q1 r1 in ((req, out) :: l, b || b2, q2, r2)
           | None => ([], false, q, r)
           end
  end.
Definition sample_q0 : Requester := requester_new [1; 2; 3]%N.
Definition sample_r0 : Responder := responder_new sample_slots.
(** The whole protocol runs in the model: six exchanges, authentication succeeds,
    both transcripts agree. *)
Example sample_run_completes :
  let '(l, b, q, r) := exchanges 6 1 sample_q0 sample_r0 in
  length l = 6 /\ b = true /\ option_map req_state_name (req_state q) = Some "NewSession"%string /\
  option_map rsp_state_name (rsp_state r) = Some "Challenge"%string /\
  t_get (req_transcript q) = t_get (rsp_transcript r).
Proof. vm_compute. repeat split. Qed.

(** The requests of that run, one by one. *)
Definition sample_exchanges : list (list N * list N) :=
  Eval vm_compute in (let '(l, _, _, _) := exchanges 6 1 sample_q0 sample_r0 in l).
Definition sample_requests : list (list N) := Eval vm_compute in map fst sample_exchanges.
Definition sample_request (i : nat) : list N := nth i sample_requests [].

(** Serve requests while they succeed, in any build. *)
Section Serve.
Context {cfg : Config} {cr : Crypto}.
Fixpoint serve (k : N) (reqs : list (list N)) (R : Responder) : option (list (list N * list N) * Responder) :=
  match reqs with
  | [] => Some ([], R)
  | req :: rest =>
    match responder_handle_msg R (sample_rnd k) req big_buf with
    | (Replied out (Ok tt), _, R1) =>
      match serve (k + 1) rest R1 with Some (l, R2) => Some ((req, out) :: l, R2) | None => None end
    | _ => None
    end
  end.
End Serve.
(** The responder after serving these requests ([sample_r0] if one fails). *)
Definition served_R (reqs : list (list N)) : Responder :=
  match serve 1 reqs sample_r0 with Some (_, R) => R | None => sample_r0 end.
Definition served_ex (reqs : list (list N)) : list (list N * list N) :=
  match serve 1 reqs sample_r0 with Some (l, _) => l | None => [] end.
