(** What is asked of the callbacks of a chain, and what it means that a lazy collection gives
    what an eager one gives. *)
From Coq Require Import List ZArith.
From Verif.Model Require Import Base Gen Chain.
From Verif.Spec Require Import ListM SeqSpec.
Import ListNotations.

(** Every callback returns, what it returns depends on its argument only, and it keeps [I];
    counts are not negative. *)
Definition settled {W A B} (I : W -> Prop) (s : stage W A B) : Prop :=
  match s with
  | SMap f => exists F, gives I f F
  | SFilter p => exists P, gives I p P
  | SChoose f => exists F, gives I f F
  | SCollect f => exists F, gives I f F
  | SSkip n | STake n => (0 <= n)%Z
  | SAppend _ | STail => True
  end.
Fixpoint settled_chain {W A B} (I : W -> Prop) (c : chain W A B) : Prop :=
  match c with Whole => True | Next s c => settled I s /\ settled_chain I c end.

(** The chain does not call [tail]. *)
Fixpoint no_tail {W A B} (c : chain W A B) : Prop :=
  match c with Whole => True | Next s c => match s with STail => False | _ => True end /\ no_tail c end.

(** Callbacks may do and raise anything but StopIteration; counts are not negative. *)
Definition never_stops {W A B} (s : stage W A B) : Prop :=
  match s with
  | SMap f => forall x, no_stop (f x)
  | SFilter p => forall x, no_stop (p x)
  | SChoose f => forall x, no_stop (f x)
  | SCollect f => forall x, no_stop (f x)
  | SSkip n | STake n => (0 <= n)%Z
  | SAppend _ => True
  | STail => False
  end.

(** Iterating [it] to its end has the effects of [m] and hands out the elements that [m]
    returns; when [m] raises, iterating raises the same exception. *)
Definition iterates_like {W A} (it : iterable W A) (m : M W (list A)) (w : W) : Prop :=
  match m w with
  | (Ret ys, w1) => iterates it w ys (Ret tt) w1
  | (Raise e, w1) => exists ys, iterates it w ys (Raise e) w1
  end.
