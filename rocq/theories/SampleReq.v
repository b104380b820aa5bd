(** Concrete requester sessions for the examples. *)
From Verif Require Import Base BaseLemmas Config Encoding MsgCommon MsgCertificates Transcript Crypto Responder Requester
     SpecWire SpecResponder SpecRequester PropTools Sample SampleRun.

Section Drive.
Context {cfg : Config} {cr : Crypto}.
(** Ask and hand in the given responses, as documented, while that succeeds. *)
Fixpoint drive (k : N) (rsps : list (list N)) (R : Requester) : option (list event * bool * Requester) :=
  match rsps with
  | [] => Some ([], false, R)
  | rsp :: rest =>
    match requester_next_request R (repeat k 32) big_buf with
    | (Ok out, _, R1) =>
      match requester_handle_msg R1 rsp with
      | (Ok b, R2) => match drive (k + 1) rest R2 with
                      | Some (ev, b', R3) => Some (Sent out :: Got rsp :: ev, match rest with [] => b | _ => b' end, R3)
                      | None => None
                      end
      | _ => None
      end
    | _ => None
    end
  end.
Lemma drive_session root : forall rsps k R ev0 ev b R', req_session root ev0 R -> Forall (fun r => forallb (fun x => (x <? 256)%N) r = true) rsps ->
  (k + N.of_nat (length rsps) < 256)%N -> drive k rsps R = Some (ev, b, R') -> req_session root (ev0 ++ ev) R'.
Proof.
  induction rsps as [|rsp rest IH]; intros k R ev0 ev b R' H F K E; cbn [drive] in E.
  - injection E as <- <- <-. now rewrite app_nil_r.
  - destruct (requester_next_request R (repeat k 32) big_buf) as [[[out|e|p] buf'] R1] eqn:E1; try discriminate.
    destruct (requester_handle_msg R1 rsp) as [[b1|e|p] R2] eqn:E2; try discriminate.
    destruct (drive (k + 1) rest R2) as [[[ev1 b2] R3]|] eqn:E3; [|discriminate]. injection E as <- <- <-.
    inversion F; subst. cbn [length] in K.
    replace (ev0 ++ Sent out :: Got rsp :: ev1) with (((ev0 ++ [Sent out]) ++ [Got rsp]) ++ ev1) by (rewrite <- !app_assoc; reflexivity).
    eapply IH; eauto; [|lia]. eapply req_session_got; [|apply bytes_check; eassumption|exact E2].
    eapply req_session_sent; [exact H| |exact E1]. split; [apply repeat_length|]. apply bytes_repeat. unfold is_byte. lia.
Qed.
End Drive.

#[local] Existing Instance sample_cfg.
#[local] Existing Instance sample_crypto.
(** The responses of the sample run, and the requester after the first [n]. *)
Definition sample_responses : list (list N) := Eval vm_compute in map snd sample_exchanges.
Definition sample_response (i : nat) : list N := nth i sample_responses [].
Definition driven (n : nat) : list event * bool * Requester :=
  match drive 2 (firstn n sample_responses) sample_q0 with Some x => x | None => ([], false, sample_q0) end.
Definition driven_ev (n : nat) : list event := let '(ev, _, _) := driven n in ev.
Definition driven_R (n : nat) : Requester := let '(_, _, R) := driven n in R.
Lemma driven_session n : n <= 6 -> req_session [1; 2; 3]%N (driven_ev n) (driven_R n).
Proof.
  intros L. assert (E : drive 2 (firstn n sample_responses) sample_q0 = Some (driven n)).
  { do 7 (destruct n as [|n]; [vm_compute; reflexivity|]). lia. }
  unfold driven_ev, driven_R. destruct (driven n) as [[ev b] R]. 
  apply (drive_session [1; 2; 3]%N _ _ _ [] _ _ _ (req_session_new _)) in E; [exact E| |].
  - enough (X : Forall (fun r : list N => forallb (fun x : N => (x <? 256)%N) r = true) sample_responses).
    { rewrite <- (firstn_skipn n sample_responses) in X. now apply Forall_app in X. }
    repeat (constructor; [vm_compute; reflexivity|]). constructor.
  - rewrite firstn_length. change (length sample_responses) with 6. lia.
Qed.
Example driven_completes : exists R, driven 6 = (driven_ev 6, true, R).
Proof. eexists. vm_compute. reflexivity. Qed.
