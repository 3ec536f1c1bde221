(** When an object belongs to a type, type arguments included. *)
From Coq Require Import List Bool.
From Verif.Model Require Import Typing.
Import ListNotations.

Section Belongs.
  Context {cls obj : Type} (inst : obj -> cls -> bool) (none : obj).
  (** [holds x i y]: y is one of the items of x that its i-th type argument is about *)
  Variable holds : obj -> nat -> obj -> Prop.
  Fixpoint belongs (t : tyexp cls) (x : obj) {struct t} : Prop :=
    match t with
    | TyNone => x = none
    | TyClass c => inst x c = true
    | TyGeneric c args =>
        inst x c = true /\
        (fix go (args : list (tyexp cls)) (i : nat) : Prop :=
           match args with [] => True | a :: args => (forall y, holds x i y -> belongs a y) /\ go args (S i) end) args 0
    | TyBar cs | TyUnion cs | TyTuple cs => exists c, In c cs /\ inst x c = true
    end.
End Belongs.
(** Types that are classes or tuples of classes. *)
Definition plain {cls} (t : tyexp cls) : Prop := match t with TyClass _ | TyTuple _ => True | _ => False end.
(** Types isinstance accepts. *)
Definition checkable {cls} (t : tyexp cls) : Prop := match t with TyNone | TyGeneric _ _ => False | _ => True end.
