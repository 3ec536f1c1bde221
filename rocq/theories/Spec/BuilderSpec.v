(** Independent specification of computation expressions: what a body produces when every
    yielded value is sent back to it, and do-notation as a chain of binds. *)
From Coq Require Import List Bool.
From Verif.Model Require Import Base OptionResult Builder.
Import ListNotations.
Local Open Scope py_scope.

(** With enough fuel, [m fuel] is always [x]. *)
Definition settles {X} (m : nat -> X) (x : X) : Prop := exists n, forall fuel, n <= fuel -> m fuel = x.

(** How a body ends. *)
Inductive ending (V Mo : Type) : Type :=
| EReturn (v : V)
| EThrow (e : exn)
| EFail (m : Mo).
Arguments EReturn {V Mo} v.
Arguments EThrow {V Mo} e.
Arguments EFail {V Mo} m.

Section Produces.
  Context {W A Mo St : Type}.
  Notation V := (pyopt A).
  Variable resume : St -> V -> W -> node V Mo St * W.

  (** [body_gives s v w vs e w1]: resumed with [v] at [s] in world [w], and then with every
      value it yields, the body yields exactly [vs], ends as [e], and leaves the world
      [w1]. *)
  Inductive body_gives : St -> V -> W -> list V -> ending V Mo -> W -> Prop :=
  | bg_return : forall s v w x w1, resume s v w = (NReturn x, w1) -> body_gives s v w [] (EReturn x) w1
  | bg_throw : forall s v w e w1, resume s v w = (NThrow e, w1) ->
      body_gives s v w [] (EThrow (match e with StopIterationExn => RuntimeError | _ => e end)) w1
  | bg_fail : forall s v w m w1, resume s v w = (NFail m, w1) -> body_gives s v w [] (EFail m) w1
  | bg_yield : forall s v w u s1 w1 vs e w2, resume s v w = (NYield u s1, w1) ->
      body_gives s1 u w1 vs e w2 -> body_gives s v w (u :: vs) e w2
  | bg_from_seq : forall s v w u us s1 w1 vs e w2, resume s v w = (NFromSeq u us s1, w1) ->
      body_gives s1 PyNone w1 vs e w2 -> body_gives s v w ((u :: us) ++ vs) e w2
  | bg_from_list : forall s v w u us s1 w1 vs e w2, resume s v w = (NFromList u us s1, w1) ->
      Forall (fun x => x = PyNone) (u :: us) ->
      body_gives s1 PyNone w1 vs e w2 -> body_gives s v w ((u :: us) ++ vs) e w2
  | bg_from_list_value : forall s v w u us s1 w1 nones x rest, resume s v w = (NFromList u us s1, w1) ->
      u :: us = nones ++ PyVal x :: rest -> Forall (fun x => x = PyNone) nones ->
      body_gives s v w (nones ++ [PyVal x]) (EThrow AttributeError) w1.
End Produces.

(** The value of a body for option and result: what it returns or fails with; without a
    return value, the value it yielded last, or else zero. *)
Definition last_of {V Mo} (zero : Mo) (pure : V -> Mo) (vs : list V) : Mo := fold_left (fun _ v => pure v) vs zero.
Definition expression_value {A Mo} (zero : Mo) (pure : pyopt A -> Mo) (vs : list (pyopt A)) (e : ending (pyopt A) Mo) : res Mo :=
  match e with
  | EReturn (PyVal x) => Ret (pure (PyVal x))
  | EReturn PyNone => Ret (last_of zero pure vs)
  | EFail m => Ret m
  | EThrow e => Raise e
  end.
(** The value of a seq body: everything yielded, then the returned value. *)
Definition sequence_value {A Mo} (elems : Mo -> list (pyopt A)) (vs : list (pyopt A)) (e : ending (pyopt A) Mo) : res (list (pyopt A)) :=
  match e with
  | EReturn (PyVal x) => Ret (vs ++ [PyVal x])
  | EReturn PyNone => Ret vs
  | EFail m => Ret (vs ++ elems m)
  | EThrow e => Raise e
  end.

(** Terminating bodies as syntax: statements with an effect, yield, yield from (or await)
    of an option or result [N], return, raise; control flow may depend on everything
    received and on the world. *)
Inductive tree (W V N : Type) : Type :=
| TReturn (v : V)
| TThrow (e : exn)
| TYield (v : V) (k : V -> tree W V N)
| TFrom (m : N) (k : V -> tree W V N)
| TDo (g : W -> W) (k : W -> tree W V N).
Arguments TReturn {W V N} v.
Arguments TThrow {W V N} e.
Arguments TYield {W V N} v k.
Arguments TFrom {W V N} m k.
Arguments TDo {W V N} g k.

Section Trees.
  Context {W A N : Type}.
  Notation V := (pyopt A).
  Notation T := (tree W V N).

  (** The body as a generator: [from] is how yield from (or await) of [N] behaves. *)
  Fixpoint tree_step (from : N -> (V -> T) -> node V N (V -> T)) (t : T) (w : W) : node V N (V -> T) * W :=
    match t with
    | TReturn v => (NReturn v, w)
    | TThrow e => (NThrow e, w)
    | TYield v k => (NYield v k, w)
    | TFrom m k => (from m k, w)
    | TDo g k => tree_step from (k w) (g w)
    end.
  Definition tree_resume (from : N -> (V -> T) -> node V N (V -> T)) (k : V -> T) (v : V) (w : W) := tree_step from (k v) w.

  (** do-notation: a chain of binds of the monad. *)
  Fixpoint do_notation (bind : N -> (V -> M W N) -> M W N) (pure : V -> N) (t : T) : M W N :=
    match t with
    | TReturn v => ret (pure v)
    | TThrow e => raise (match e with StopIterationExn => RuntimeError | _ => e end)
    | TYield v k => bind (pure v) (fun x => do_notation bind pure (k x))
    | TFrom m k => bind m (fun x => do_notation bind pure (k x))
    | TDo g k => fun w => do_notation bind pure (k w) (g w)
    end.

  (** Every way through the body ends with a return of a value that is not None (or an
      exception, or a failure). *)
  Inductive returns_value : T -> Prop :=
  | rv_return : forall x, returns_value (TReturn (PyVal x))
  | rv_throw : forall e, returns_value (TThrow e)
  | rv_yield : forall v k, (forall x, returns_value (k x)) -> returns_value (TYield v k)
  | rv_from : forall m k, (forall x, returns_value (k x)) -> returns_value (TFrom m k)
  | rv_do : forall g k, (forall w, returns_value (k w)) -> returns_value (TDo g k).

  (** The body as an asynchronous generator with [await m]: a value goes on at once. *)
  Fixpoint await_step (view : N -> option V) (t : T) (w : W) : node V N (V -> T) * W :=
    match t with
    | TReturn v => (NReturn PyNone, w)
    | TThrow e => (NThrow e, w)
    | TYield v k => (NYield v k, w)
    | TFrom m k => match view m with Some v => await_step view (k v) w | None => (NFail m, w) end
    | TDo g k => await_step view (k w) (g w)
    end.
  Definition await_resume (view : N -> option V) (k : V -> T) (v : V) (w : W) := await_step view (k v) w.
End Trees.

(** Bodies that an asynchronous generator can be: no return value, no yield from. *)
Definition async_body {W A Mo St} (resume : St -> pyopt A -> W -> node (pyopt A) Mo St * W) : Prop :=
  forall s v w, match fst (resume s v w) with
                | NReturn (PyVal _) | NFromSeq _ _ _ | NFromList _ _ _ => False
                | _ => True
                end.
