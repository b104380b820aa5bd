(** Base vocabulary of the model: outcomes, the state/error monad in which every
    function that takes [&mut] state and returns a [Result] is written, bytes,
    little-endian integers and checked machine operations. *)
From Coq Require Export String.
From Coq Require Export List Arith NArith ZArith Lia Bool.
From Coq Require Export ZifyBool ZifyNat ZifyN.
Export ListNotations.
#[export] Set Warnings "-notation-overridden".
Open Scope list_scope.

Arguments N.add : simpl never.
Arguments N.mul : simpl never.
Arguments N.sub : simpl never.
Arguments N.div : simpl never.
Arguments N.modulo : simpl never.
Arguments N.pow : simpl never.
Arguments N.shiftl : simpl never.
Arguments N.shiftr : simpl never.
Arguments N.lor : simpl never.
Arguments N.land : simpl never.
Arguments N.testbit : simpl never.
Arguments N.of_nat : simpl never.
Arguments N.to_nat : simpl never.

(** A byte (u8); [is_byte] is the range the Rust type guarantees. *)
Definition byte := N.
Definition is_byte (b : N) : Prop := (b < 256)%N.
Definition bytes (l : list N) : Prop := Forall is_byte l.

(** The reasons a Rust function can panic (std semantics of assert!, slice
    indexing, unwrap/expect, arithmetic overflow, unimplemented!, unreachable!), and
    OsRng's when there is no entropy. *)
Inductive panic := PAssert | PIndex | PUnwrap | POverflow | PUnimplemented | PUnreachable | PEntropy.

(** Outcome of a Rust call returning [Result<A, E>]. *)
Inductive res (E A : Type) : Type :=
| Ok (a : A)
| Err (e : E)
| Panic (p : panic).
Arguments Ok {E A} a.
Arguments Err {E A} e.
Arguments Panic {E A} p.

(** A Rust function on a mutable state: the state is also returned on error. *)
Definition M (St E A : Type) : Type := St -> res E A * St.

Definition ret {St E A} (a : A) : M St E A := fun s => (Ok a, s).
Definition err {St E A} (e : E) : M St E A := fun s => (Err e, s).
Definition pnc {St E A} (p : panic) : M St E A := fun s => (Panic p, s).
Definition bind {St E A B} (m : M St E A) (k : A -> M St E B) : M St E B :=
  fun s => match m s with
           | (Ok a, s') => k a s'
           | (Err e, s') => (Err e, s')
           | (Panic p, s') => (Panic p, s')
           end.
(** [m?] with a [From] conversion of the error type, or [.map_err(f)?]. *)
Definition map_err {St E F A} (f : E -> F) (m : M St E A) : M St F A :=
  fun s => match m s with
           | (Ok a, s') => (Ok a, s')
           | (Err e, s') => (Err (f e), s')
           | (Panic p, s') => (Panic p, s')
           end.
Definition lift {St E A} (r : res E A) : M St E A := fun s => (r, s).
Definition gets {St E A} (f : St -> A) : M St E A := fun s => (Ok (f s), s).

Declare Scope monad_scope.
Delimit Scope monad_scope with monad.
Notation "x <- m ;; k" := (bind m (fun x => k))
  (at level 61, m at next level, right associativity) : monad_scope.
Notation "m ;;; k" := (bind m (fun _ => k))
  (at level 61, right associativity) : monad_scope.
Notation "' pat <- m ;; k" := (bind m (fun x => match x with pat => k end))
  (at level 61, pat pattern, m at next level, right associativity) : monad_scope.
Open Scope monad_scope.

(** Same combinators for pure outcomes. *)
Definition rbind {E A B} (r : res E A) (k : A -> res E B) : res E B :=
  match r with Ok a => k a | Err e => Err e | Panic p => Panic p end.
Definition rmap_err {E F A} (f : E -> F) (r : res E A) : res F A :=
  match r with Ok a => Ok a | Err e => Err (f e) | Panic p => Panic p end.
Definition rmap {E A B} (f : A -> B) (r : res E A) : res E B :=
  match r with Ok a => Ok (f a) | Err e => Err e | Panic p => Panic p end.
Definition of_option {E A} (e : E) (o : option A) : res E A :=
  match o with Some a => Ok a | None => Err e end.

(** [for _ in 0..n { m?; }] *)
Fixpoint repeatM {St E} (n : nat) (m : M St E unit) : M St E unit :=
  match n with
  | O => ret tt
  | S k => m ;;; repeatM k m
  end.

(** [for x in xs { f(x)?; }] *)
Fixpoint iterM {St E A} (xs : list A) (f : A -> M St E unit) : M St E unit :=
  match xs with
  | [] => ret tt
  | x :: r => f x ;;; iterM r f
  end.

(** [arr\[i\] = v] on a fixed size array; [None] is the out-of-bounds panic. *)
Fixpoint upd {A} (l : list A) (i : nat) (v : A) : list A :=
  match l, i with
  | [], _ => []
  | _ :: r, O => v :: r
  | x :: r, S k => x :: upd r k v
  end.

(** [for i in i..i+todo { arr\[i\] = rd()?; }]: the right-hand side is evaluated
    before the bounds check of the place, as in Rust. *)
Fixpoint fill {St E A} (todo i : nat) (arr : list A) (rd : M St E A) : M St E (list A) :=
  match todo with
  | O => ret arr
  | S t => x <- rd ;;
           if i <? length arr then fill t (S i) (upd arr i x) rd else pnc PIndex
  end.

Definition slice {A} (l : list A) (from to : nat) : list A :=
  firstn (to - from) (skipn from l).

(** Little-endian integers (u16::to_le_bytes, from_le_bytes, ...). *)
Fixpoint le_bytes (k : nat) (n : N) : list N :=
  match k with
  | O => []
  | S k' => (n mod 256)%N :: le_bytes k' (n / 256)%N
  end.
Fixpoint le_val (l : list N) : N :=
  match l with
  | [] => 0%N
  | b :: r => (b + 256 * le_val r)%N
  end.

(** u8 operators.  [oc] says whether the build has overflow checks: a shift by
    8 or more panics with them and has its amount masked without. *)
Definition shamt8 {E} (oc : bool) (k : nat) : res E nat :=
  if k <? 8 then Ok k else if oc then Panic POverflow else Ok (k mod 8).
Definition shl8 {E} (oc : bool) (x : N) (k : nat) : res E N :=
  rmap (fun k' => (N.shiftl x (N.of_nat k') mod 256)%N) (shamt8 oc k).
Definition shr8 {E} (oc : bool) (x : N) (k : nat) : res E N :=
  rmap (fun k' => N.shiftr x (N.of_nat k')) (shamt8 oc k).
(** [a - b] on u8. *)
Definition sub8 {E} (oc : bool) (a b : nat) : res E nat :=
  if b <=? a then Ok (a - b)
  else if oc then Panic POverflow else Ok (N.to_nat (256 + N.of_nat a - N.of_nat b)%N).

(** bitflags' [from_bits]: defined only if no bit outside [all] is set. *)
Definition from_bits (all bits : N) : option N :=
  if (N.land bits all =? bits)%N then Some bits else None.
(** bitflags' [contains]. *)
Definition contains (flags f : N) : bool := (N.land flags f =? f)%N.

(** [count_ones] *)
Fixpoint pos_ones (p : positive) : nat :=
  match p with xH => 1 | xO q => pos_ones q | xI q => S (pos_ones q) end.
Definition count_ones (n : N) : nat := match n with N0 => 0 | Npos p => pos_ones p end.

(** [trailing_zeros] of a [w]-bit integer ([w] for zero). *)
Fixpoint pos_tz (p : positive) : nat :=
  match p with xO q => S (pos_tz q) | _ => 0 end.
Definition trailing_zeros (w : nat) (n : N) : nat :=
  match n with N0 => w | Npos p => pos_tz p end.

Fixpoint list_eqb (a b : list N) : bool :=
  match a, b with
  | [], [] => true
  | x :: a', y :: b' => (x =? y)%N && list_eqb a' b'
  | _, _ => false
  end.
