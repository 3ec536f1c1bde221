(** Left-to-right list algorithms with effectful callbacks.  They are the yardstick
    for the order and number of callback calls, early exit, and propagation of
    exceptions; they know nothing about trees, blocks or sequences. *)
From Coq Require Import List Bool.
From Verif.Model Require Import Base.
Import ListNotations.
Local Open Scope py_scope.

(** How an outcome looks from outside of a generator or of async code: Python turns a
    StopIteration that leaves it into a RuntimeError. *)
Definition leaving {X} (r : res X) : res X := match r with Raise StopIterationExn => Raise RuntimeError | _ => r end.
Definition outside {W X} (m : M W X) : M W X := fun w => let '(r, w1) := m w in (leaving r, w1).

Section ListM.
  Context {W A B : Type}.

  (** call [f] on every element, first to last *)
  Fixpoint iterM (f : A -> M W unit) (l : list A) : M W unit :=
    match l with
    | [] => ret tt
    | x :: l => do _ <- f x; iterM f l
    end.

  (** collect the results of [f] on every element, first to last *)
  Fixpoint mapM (f : A -> M W B) (l : list A) : M W (list B) :=
    match l with
    | [] => ret []
    | x :: l => do y <- f x; do ys <- mapM f l; ret (y :: ys)
    end.

  (** keep the elements the predicate accepts, testing first to last *)
  Fixpoint filterM (p : A -> M W bool) (l : list A) : M W (list A) :=
    match l with
    | [] => ret []
    | x :: l =>
        do b <- p x; do ys <- filterM p l;
        ret (if b : bool then x :: ys else ys)
    end.

  (** accepted and rejected elements *)
  Fixpoint partitionM (p : A -> M W bool) (l : list A) : M W (list A * list A) :=
    match l with
    | [] => ret ([], [])
    | x :: l =>
        do b <- p x; do (ys, zs) <- partitionM p l;
        ret (if b : bool then (x :: ys, zs) else (ys, x :: zs))
    end.

  (** left fold *)
  Fixpoint foldM (f : B -> A -> M W B) (b : B) (l : list A) : M W B :=
    match l with
    | [] => ret b
    | x :: l => do b <- f b x; foldM f b l
    end.

  (** first [Some], searching first to last and stopping there *)
  Fixpoint firstM (f : A -> M W (option B)) (l : list A) : M W (option B) :=
    match l with
    | [] => ret None
    | x :: l =>
        do o <- f x;
        match o with Some y => ret (Some y) | None => firstM f l end
    end.

  (** stop at the first element accepted *)
  Fixpoint existsM (p : A -> M W bool) (l : list A) : M W bool :=
    match l with
    | [] => ret false
    | x :: l => do b <- p x; if b : bool then ret true else existsM p l
    end.

  (** stop at the first element rejected *)
  Fixpoint forallM (p : A -> M W bool) (l : list A) : M W bool :=
    match l with
    | [] => ret true
    | x :: l => do b <- p x; if b : bool then forallM p l else ret false
    end.
End ListM.
