(** Common vocabulary of the model: exceptions as values, effectful callbacks,
    and ordered keys.  No property theorem here. *)
From Coq Require Import List ZArith Bool.
Import ListNotations.

(** Python exceptions that the modelled code raises itself, plus [UserExn n] for
    whatever a user callback raises.  [InternalError] stands for the exception raised
    by [failwith] (expression/core/error.py:12-14, [raise Exception(message)]); the
    message text is not modelled.  [OutOfFuel] is not a Python exception: it marks a
    modelled loop that was given too little fuel. *)
Inductive exn : Type :=
| ValueError
| KeyError
| IndexError
| TypeError
| OverflowError
| AttributeError
| StopIterationExn
| EffectErrorExn
| InternalError
| RecursionError
| RuntimeError
| ObjectDisposed
| OperationCanceled
| OutOfFuel
| UserExn (n : nat).

(** Outcome of a Python call: a value or a raised exception. *)
Inductive res (A : Type) : Type :=
| Ret (a : A)
| Raise (e : exn).
Arguments Ret {A} a.
Arguments Raise {A} e.

(** Going on after a call that returned; an exception is passed on (Python's semantics, as
    all of this file). *)
Definition rbind {A B} (x : res A) (f : A -> res B) : res B :=
  match x with Ret a => f a | Raise e => Raise e end.

(** A call whose result is used in an expression that cannot raise. *)
Definition rmap {A B} (f : A -> B) (x : res A) : res B :=
  match x with Ret a => Ret (f a) | Raise e => Raise e end.

(** Computation of a Python expression that may call user code: it transforms an
    arbitrary world [W] (anything user code can read or write) and returns or raises.
    Side effects made before a raise are kept, as in Python. *)
Definition M (W A : Type) : Type := W -> res A * W.

(** Statements: return a value, raise, one after the other, and a call without effects. *)
Definition ret {W A} (a : A) : M W A := fun w => (Ret a, w).
Definition raise {W A} (e : exn) : M W A := fun w => (Raise e, w).
Definition bind {W A B} (x : M W A) (f : A -> M W B) : M W B :=
  fun w => match x w with
           | (Ret a, w1) => f a w1
           | (Raise e, w1) => (Raise e, w1)
           end.
(** A computation without effects as a statement. *)
Definition lift {W A} (x : res A) : M W A := fun w => (x, w).

Declare Scope py_scope.
Delimit Scope py_scope with py.
Notation "'do' x <- e ; f" := (bind e (fun x => f))
  (at level 200, x pattern, right associativity) : py_scope.
Notation "'dor' x <- e ; f" := (rbind e (fun x => f))
  (at level 200, x pattern, right associativity) : py_scope.

(** Equality of two effectful computations: same outcome and same final world from
    every initial world. *)
Definition meq {W A} (x y : M W A) : Prop := forall w, x w = y w.
Infix "==m" := meq (at level 70).

(** Keys of a [Map]: Python objects with [<] and [==].  The comparison methods are
    assumed to be pure and to form a strict weak order whose incomparability is [==]
    (SupportsLessThanAndHash, expression/core/typing.py).  [==] need not be identity
    of objects: [1 == 1.0 == True]. *)
Class KeyOrd (K : Type) : Type := {
  ltb : K -> K -> bool;
  eqb : K -> K -> bool;
  eqb_incomparable : forall a b, eqb a b = true <-> (ltb a b = false /\ ltb b a = false);
  ltb_irrefl : forall a, ltb a a = false;
  ltb_trans : forall a b c, ltb a b = true -> ltb b c = true -> ltb a c = true;
  ltb_eqb_l : forall a b c, eqb a b = true -> ltb a c = ltb b c;
  ltb_eqb_r : forall a b c, eqb a b = true -> ltb c a = ltb c b
}.

(** Code running inside a generator (a generator function or generator expression):
    Python turns a StopIteration that would leave it into a RuntimeError (PEP 479). *)
Definition in_generator {W A} (m : M W A) : M W A :=
  fun w => match m w with (Raise StopIterationExn, w) => (Raise RuntimeError, w) | r => r end.
