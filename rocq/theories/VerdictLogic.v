(** Running a handler against a list of checks (SpecChecks). *)
From Verif Require Import Base BaseLemmas SpecChecks.

Section VerdictLogic.
Context {St E : Type}.
(** Running [m] from [c] ends as the first failing check of [cs] says. *)
Definition D {A} (cs : list (check E)) (m : M St E A) (c : St) : Prop := exists v, first_failing cs v /\ ended v (fst (m c)).
Lemma D_ok {A B} cs (m : M St E A) (k : A -> M St E B) c a c1 : m c = (Ok a, c1) -> D cs (k a) c1 -> D cs (bind m k) c.
Proof. intros E1 (v & F & M). exists v. split; [auto|]. unfold bind. now rewrite E1. Qed.
Lemma D_hold {A} (P : Prop) v cs (m : M St E A) c : P -> D cs m c -> D ((P, v) :: cs) m c.
Proof. intros HP (w & F & M). exists w. split; [now apply holds_here|auto]. Qed.
Lemma D_err {A B} (P : Prop) (why : E -> Prop) cs (m : M St E A) (k : A -> M St E B) c e c1 : ~ P -> m c = (Err e, c1) -> why e -> D ((P, Refuse why) :: cs) (bind m k) c.
Proof. intros HP E1 W. exists (Refuse why). split; [now apply fails_here|]. unfold bind. rewrite E1. exact W. Qed.
Lemma D_pan {A B} (P : Prop) cs (m : M St E A) (k : A -> M St E B) c p c1 : ~ P -> m c = (Panic p, c1) -> D ((P, Crash) :: cs) (bind m k) c.
Proof. intros HP E1. exists Crash. split; [now apply fails_here|]. unfold bind. rewrite E1. exact I. Qed.
Lemma D_err0 {A} (P : Prop) (why : E -> Prop) cs (m : M St E A) c e c1 : ~ P -> m c = (Err e, c1) -> why e -> D ((P, Refuse why) :: cs) m c.
Proof. intros HP E1 W. exists (Refuse why). split; [now apply fails_here|]. rewrite E1. exact W. Qed.
Lemma D_pan0 {A} (P : Prop) cs (m : M St E A) c p c1 : ~ P -> m c = (Panic p, c1) -> D ((P, Crash) :: cs) m c.
Proof. intros HP E1. exists Crash. split; [now apply fails_here|]. rewrite E1. exact I. Qed.
Lemma D_eq {A} cs (m : M St E A) (m' : M St E A) c c' : m c = m' c' -> D cs m' c' -> D cs m c.
Proof. intros E1 (v & F & M). exists v. rewrite E1. auto. Qed.
Lemma D_end {A} (m : M St E A) c a c1 : m c = (Ok a, c1) -> D [] m c.
Proof. intros E1. exists Answer. split; [constructor|]. now rewrite E1. Qed.
(** Something that cannot fail afterwards. *)
Lemma D_then {A B} cs (m : M St E A) (k : A -> M St E B) c : D cs m c -> (forall a c1, m c = (Ok a, c1) -> exists b c2, k a c1 = (Ok b, c2)) -> D cs (bind m k) c.
Proof.
  intros (v & F & M) K. exists v. split; [auto|]. unfold bind. destruct (m c) as [[a|e|p] c1] eqn:E1; cbn [fst] in M.
  - destruct (K a c1 eq_refl) as (b & c2 & ->). destruct v; simpl in *; auto.
  - destruct v; simpl in *; auto.
  - destruct v; simpl in *; auto.
Qed.
End VerdictLogic.
Lemma first_failing_unique {E} (cs : list (check E)) v w : first_failing cs v -> first_failing cs w -> v = w.
Proof.
  intros H. revert w. induction H as [|c v r N|c v r u C H IH]; intros w Hw; inversion Hw; subst; auto; contradiction.
Qed.
Lemma first_failing_answer {E} (cs : list (check E)) : Forall (fun x => snd x <> Answer) cs ->
  (first_failing cs Answer <-> Forall fst cs).
Proof.
  intros NA. split.
  - intros H. remember Answer as a eqn:Ea. revert NA. induction H as [|c v r N|c v r u C H IH]; intros NA; [constructor| |].
    + inversion NA; subst. simpl in *. congruence.
    + inversion NA; subst. constructor; auto.
  - intros FA. clear NA. induction FA as [|[c v] r H _ IH]; [constructor|]. now apply holds_here.
Qed.
