(** Model of functions decorated with several of the decorators of the library: extra/result/catch.py
    [catch], core/fn.py [tailrec] and [tailrec_async], core/curry.py [curry], the decorators
    [effect.result] and [effect.async_result] (core/builder.py, core/async_builder.py with effect/result.py,
    effect/async_result.py).  Each decorator sees what the function beneath returns: a value, a Result, a
    TailCall, another function, a coroutine or a generator.  Keyword arguments are left out, and so are
    async generators and that a coroutine can be awaited only once.  Definitions only. *)
From Coq Require Import List Bool.
From Verif.Model Require Import Base.
Import ListNotations.
Local Open Scope list_scope.
Local Open Scope py_scope.

(** Python objects, as far as the decorators tell them apart. *)
Inductive value : Type :=
| VNone
| VOther (n : nat)
| VExn (e : exn)                              (** an exception object, as the error of a Result *)
| VOk (v : value) | VError (v : value)        (** Results *)
| VTail (args : list value)                   (** fn.py:14-23 [TailCall( *args)] *)
| VFun (f : func)
| VCoro (f : func) (args : list value)        (** the coroutine that calling an async function makes *)
| VGen (i : nat) (args : list value)          (** the generator that calling a generator function makes *)
(** Function objects: functions of the user, and the closures that the decorators make. *)
with func : Type :=
| User (i : nat)
| Catch (matches : exn -> bool) (f : func)    (** catch.py:34-47 [wrapper]; [matches] is [except exception] *)
| Tailrec (f : func)                          (** fn.py:46-48 *)
| TailrecAsync (f : func)                     (** fn.py:64-67 *)
| Curried (args : list value) (arity : nat) (f : func) (** curry.py:18-24 [_curry(args, arity, fun)] *)
| EffResult (f : func)                        (** builder.py:101-141, for effect.result *)
| EffAsync (f : func).                        (** async_builder.py:108-144, for effect.async_result *)

(** curry.py:88-108 [curry(num_args)] *)
Definition curry (num_args : nat) (f : func) : func := Curried [] (S num_args) f.

(** [isinstance(out, Result)] *)
Definition is_result (v : value) : bool := match v with VOk _ | VError _ => true | _ => false end.
(** catch.py:36-45.  OutOfFuel is the end of the model's fuel and no exception. *)
Definition catching {W} (matches : exn -> bool) (m : M W value) : M W value := fun w =>
  match m w with
  | (Raise OutOfFuel, w) => (Raise OutOfFuel, w)
  | (Raise e, w) => if matches e then (Ret (VError (VExn e)), w) else (Raise e, w)
  | (Ret out, w) => if is_result out then (Ret out, w) else (Ret (VOk out), w)
  end.

(** What kind of function the user wrote: def, async def, or def with yield. *)
Inductive kind : Type := PlainFn | AsyncFn | GenFn.

Section Calls.
  Context {W : Type}.
  Variable kind_of : nat -> kind.
  (** What running the body of a function of the user does. *)
  Variable body : nat -> list value -> M W value.
  (** What the computation expression made of a generator gives: C47 is about this. *)
  Variable computation : nat -> list value -> M W (value + value).

  (** What result.py:35-48 makes of the two ways a body ends. *)
  Definition of_computation (r : value + value) : value := match r with inl v => VOk v | inr e => VError e end.
  (** builder.py:104-112 and async_builder.py:111-124 with [return_] and [zero] of effect/result.py:35-48 and 78-87 *)
  Definition returned (v : value) : value := match v with VNone => VOk VNone | v => VOk v end.

  (** Calling a function. *)
  Fixpoint call (fuel : nat) (f : func) (args : list value) {struct fuel} : M W value :=
    match fuel with
    | 0 => raise OutOfFuel
    | S fuel =>
        match f with
        | User i =>
            match kind_of i with
            | PlainFn => body i args
            | AsyncFn => ret (VCoro (User i) args)
            | GenFn => ret (VGen i args)
            end
        | Catch matches f => catching matches (call fuel f args)
        | Tailrec f => do bouncer <- call fuel f args; trampoline fuel f bouncer
        | TailrecAsync f => ret (VCoro (TailrecAsync f) args)
        | Curried args0 arity f =>
            match arity with
            | 1 => call fuel f (args0 ++ args)
            | _ => ret (VFun (Curried (args0 ++ args) (arity - 1) f))
            end
        | EffResult f =>
            do body <- call fuel f args;
            match body with
            | VGen i args => do r <- computation i args; ret (of_computation r)
            | v => ret (returned v)
            end
        | EffAsync f => ret (VCoro (EffAsync f) args)
        end
    end
  (** fn.py:37-44 [trampoline] *)
  with trampoline (fuel : nat) (f : func) (bouncer : value) {struct fuel} : M W value :=
    match fuel with
    | 0 => raise OutOfFuel
    | S fuel => match bouncer with VTail args => do bouncer <- call fuel f args; trampoline fuel f bouncer | v => ret v end
    end.

  (** Awaiting an object; what is no coroutine cannot be awaited. *)
  Fixpoint await (fuel : nat) (v : value) {struct fuel} : M W value :=
    match fuel with
    | 0 => raise OutOfFuel
    | S fuel =>
        match v with
        | VCoro (User i) args => body i args
        | VCoro (TailrecAsync f) args => do r <- call fuel f args; do result <- await fuel r; trampoline_async fuel f result
        | VCoro (EffAsync f) args =>
            do body <- call fuel f args;
            match body with
            | VCoro _ _ => do r <- await fuel body; ret (returned r)
            | v => ret (returned v)
            end
        | _ => raise TypeError
        end
    end
  (** fn.py:56-62 [trampoline] *)
  with trampoline_async (fuel : nat) (f : func) (bouncer : value) {struct fuel} : M W value :=
    match fuel with
    | 0 => raise OutOfFuel
    | S fuel =>
        match bouncer with
        | VTail args => do r <- call fuel f args; do bouncer <- await fuel r; trampoline_async fuel f bouncer
        | v => ret v
        end
    end.

  (** Calling what a call gave, again and again, as in [f(a)(b)(c)]: what is no function cannot be called. *)
  Fixpoint call_groups (fuel : nat) (f : func) (groups : list (list value)) : M W value :=
    match groups with
    | [] => ret (VFun f)
    | [args] => call fuel f args
    | args :: groups =>
        do r <- call fuel f args;
        match r with VFun g => call_groups fuel g groups | _ => raise TypeError end
    end.
End Calls.
