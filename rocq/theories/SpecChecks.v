(** Tables of checks: a call goes through a list of conditions in order, and the
    first one that does not hold decides how it ends. *)
From Verif Require Import Base.

(** How a call ends: with an answer, with an error satisfying [why], or with a panic. *)
Inductive verdict {E : Type} :=
| Answer
| Refuse (why : E -> Prop)
| Crash.
Arguments verdict : clear implicits.
(** A condition, and how the call ends when it is the first that does not hold. *)
Definition check (E : Type) : Type := Prop * verdict E.
Inductive first_failing {E : Type} : list (check E) -> verdict E -> Prop :=
| all_hold : first_failing [] Answer
| fails_here (c : Prop) v rest : ~ c -> first_failing ((c, v) :: rest) v
| holds_here (c : Prop) v rest w : c -> first_failing rest w -> first_failing ((c, v) :: rest) w.
(** How the call really ended. *)
Definition ended {E A : Type} (v : verdict E) (r : res E A) : Prop :=
  match v, r with
  | Answer, Ok _ => True
  | Refuse why, Err e => why e
  | Crash, Panic _ => True
  | _, _ => False
  end.
(** Exactly this error. *)
Definition is {E : Type} (e e' : E) : Prop := e' = e.
