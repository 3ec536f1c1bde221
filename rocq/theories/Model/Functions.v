(** Model of expression/core/curry.py, compose.py, pipe.py, misc.py and fn.py. *)
From Coq Require Import List ZArith Bool String.
From Verif.Model Require Import Base.
Import ListNotations.
Local Open Scope py_scope.
Local Open Scope list_scope.

Section Curry.
  Context {W V R : Type}.
  (** Keyword arguments of a call. *)
  Definition kwds : Type := list (string * V).
  (** A Python function of positional and keyword arguments. *)
  Definition pyfun : Type := list V -> kwds -> M W R.

  (** The closure made by one call of [_curry] (curry.py:18-24): its captured
      variables [args], [arity], [fun]. *)
  Record curried : Type := Curried { c_args : list V; c_arity : Z; c_fun : pyfun }.

  (** curry.py:18-24 [_curry]: making the closure. *)
  Definition _curry (args : list V) (arity : Z) (f : pyfun) : curried := Curried args arity f.

  (** curry.py:19-22 [wrapper( *args_, **kw)]: calling the closure gives the result of
      the function or another closure. *)
  Definition curry_wrapper (c : curried) (args_ : list V) (kw : kwds) : M W (curried + R) :=
    if Z.eqb (c_arity c) 1
    then do r <- c_fun c (c_args c ++ args_) kw; ret (inr r)
    else ret (inl (_curry (c_args c ++ args_) (c_arity c - 1) (c_fun c))).

  (** curry.py:88-108 [curry(num_args)(fun)]; [functools.wraps] only copies the
      function's metadata and is not modelled. *)
  Definition curry (num_args : Z) (f : pyfun) : curried := _curry [] (num_args + 1) f.

  (** Calling a curried function again and again, once per group of arguments, as in
      [f(a)(b, c)(d, k=e)].  Calling the final result is not part of the code and is
      given as [TypeError]. *)
  Fixpoint calls (c : curried + R) (groups : list (list V * kwds)) : M W (curried + R) :=
    match groups with
    | [] => ret c
    | (args, kw) :: groups =>
        match c with
        | inl c => do c1 <- curry_wrapper c args kw; calls c1 groups
        | inr _ => raise TypeError
        end
    end.

  (** curry.py:195-205 [curry_flip(num_args)(fun)]: the function itself when num_args
      is 0, else [_wrap_args]. *)
  Inductive flipped : Type := Plain (f : pyfun) | WrapArgs (num_args : Z) (f : pyfun).
  Definition curry_flip (num_args : Z) (f : pyfun) : flipped :=
    if Z.eqb num_args 0 then Plain f else WrapArgs num_args f.

  (** curry.py:196-201 [_wrap_args( *args, **kwargs)].  [_wrap_curried] has no keyword
      parameters, so passing any to it is a TypeError. *)
  Definition call_flipped (g : flipped) (args : list V) (kwargs : kwds) : M W (curried + R) :=
    match g with
    | Plain f => do r <- f args kwargs; ret (inr r)
    | WrapArgs num_args f =>
        ret (inl (_curry [] num_args (fun curry_args kw =>
          match kw with [] => f (curry_args ++ args) kwargs | _ => raise TypeError end)))
    end.

  (** curry.py:208-222 [pipeable(function, *args, **kwargs)]. *)
  Definition pipeable (f : pyfun) (args : list V) (kwargs : kwds) : M W (curried + R) :=
    call_flipped (curry_flip 1 f) args kwargs.
End Curry.
Arguments kwds V : clear implicits.
Arguments pyfun W V R : clear implicits.
Arguments curried W V R : clear implicits.

Section Pipe.
  Context {W V : Type}.
  (** Iterating an argument value for [*fields] (TypeError when it is not iterable),
      and building a tuple value. *)
  Variable unpack : V -> res (list V).
  Variable mktuple : list V -> V.

  (** functools.reduce with a start value, as used in compose.py:139 and 192. *)
  Fixpoint reduceM {A B} (f : A -> B -> M W A) (xs : list B) (acc : A) : M W A :=
    match xs with [] => ret acc | x :: xs => do acc <- f acc x; reduceM f xs acc end.

  (** compose.py:116-141 *)
  Definition compose (fns : list (V -> M W V)) : V -> M W V :=
    fun source => reduceM (fun acc f => f acc) fns source.

  (** compose.py:177-194 *)
  Definition starcompose (fns : list (list V -> M W V)) : V -> M W V :=
    fun source => reduceM (fun fields f => do xs <- lift (unpack fields); f xs) fns source.

  (** pipe.py:292-303, and the method PipeMixin.pipe, pipe.py:636-638 *)
  Definition pipe (value : V) (fns : list (V -> M W V)) : M W V := compose fns value.

  (** Indexing a tuple of values. *)
  Definition getitem (values : list V) (i : nat) : res V :=
    match nth_error values i with Some x => Ret x | None => Raise IndexError end.

  (** pipe.py:333-334; the first function is curried, the others are not. [fns] is
      the tuple of functions, empty or not. *)
  Definition pipe2 (values : list V) (fns : option ((V -> M W (V -> M W V)) * list (V -> M W V))) : M W V :=
    match fns with
    | None => ret (mktuple values)
    | Some (f, fns) =>
        do x0 <- lift (getitem values 0); do g <- f x0;
        do x1 <- lift (getitem values 1); do y <- g x1;
        pipe y fns
    end.

  (** pipe.py:337-338 *)
  Definition pipe3 (values : list V) (fns : option ((V -> M W (V -> M W (V -> M W V))) * list (V -> M W V))) : M W V :=
    match fns with
    | None => ret (mktuple values)
    | Some (f, fns) =>
        do x0 <- lift (getitem values 0); do g <- f x0;
        do x1 <- lift (getitem values 1); do h <- g x1;
        do x2 <- lift (getitem values 2); do y <- h x2;
        pipe y fns
    end.

  (** misc.py:14-36 *)
  Definition identity : V -> M W V := fun value => ret value.
  Definition starid (value : list V) : M W V := ret (mktuple value).
  Definition flip {A B C : Type} (f : A -> B -> M W C) : B -> A -> M W C := fun b a => f a b.

  (** pipe.py:397-413 *)
  Definition starpipe (args : V) (fns : list (list V -> M W V)) : M W V :=
    let fn := match fns with f :: _ => f | [] => starid end in
    do xs <- lift (unpack args); do y <- fn xs;
    starcompose (tl fns) y.
End Pipe.

Section TailRec.
  Context {W Args R : Type}.
  (** What a decorated function returns: a [TailCall] (fn.py:14-23) or a result. *)
  Inductive bounce : Type := TailCall (args : Args) | Result (r : R).
  Variable fn : Args -> M W bounce.

  (** Python stack frames of a call to the decorated function. *)
  Inductive frame : Type :=
  | InFn (args : Args)        (** fn( *args, **kw) is running *)
  | InWrapper                 (** wrapper, waiting for its first call of fn *)
  | WrapperTail               (** wrapper, waiting for trampoline *)
  | InTrampoline (b : option bounce). (** the loop; None while it waits for fn *)

  (** The stack, innermost frame first, and what is being returned or raised to it. *)
  Inductive tstate : Type :=
  | Running (stack : list frame)
  | Finished (r : res R).

  (** One step of a call of the decorated function (fn.py:37-48 [trampoline] and
      [wrapper]; fn.py:56-67 is the same with [await] before each call). *)
  Definition tstep (s : tstate * W) : tstate * W :=
    let (st, w) := s in
    match st with
    | Finished r => (Finished r, w)
    | Running (InFn args :: InWrapper :: rest) =>
        (* fn.py:48: trampoline(fn(...)), the first call returns or raises *)
        match fn args w with
        | (Ret b, w1) => (Running (InTrampoline (Some b) :: WrapperTail :: rest), w1)
        | (Raise e, w1) => (Finished (Raise e), w1)
        end
    | Running (InFn args :: InTrampoline _ :: rest) =>
        (* fn.py:42: bouncer = fn( *args, **kw) *)
        match fn args w with
        | (Ret b, w1) => (Running (InTrampoline (Some b) :: rest), w1)
        | (Raise e, w1) => (Finished (Raise e), w1)
        end
    | Running (InTrampoline (Some (TailCall args)) :: rest) =>
        (* fn.py:38-42 *)
        (Running (InFn args :: InTrampoline None :: rest), w)
    | Running (InTrampoline (Some (Result r)) :: _) =>
        (* fn.py:44, then wrapper returns it *)
        (Finished (Ret r), w)
    | Running _ => (st, w)
    end.

  (** A call of the wrapper made by [tailrec] (fn.py:29-50) before its first step, its
      run, and the depth of its stack. *)
  Definition tstart (args : Args) : tstate := Running [InFn args; InWrapper].

  (** [n] of its steps. *)
  Fixpoint trun (n : nat) (s : tstate * W) : tstate * W :=
    match n with 0 => s | S n => trun n (tstep s) end.

  Definition depth (s : tstate) : nat := match s with Running st => List.length st | Finished _ => 0 end.
End TailRec.
Arguments bounce Args R : clear implicits.
