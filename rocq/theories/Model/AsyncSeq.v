(** Model of expression/collections/asyncseq.py.  Definitions only.

    An async iterator is modelled like an iterator (Gen.v): one step may have effects,
    raise, hand out an element or end (StopAsyncIteration).  What other tasks do while an
    [await] is suspended is part of the effects of that step.  ([__anext__] of a coroutine
    cannot raise StopIteration; a step that raises it stands for an end.)  Callbacks are plain
    functions.  Cancellation of the awaiting task is not modelled, nor is a callback that
    raises StopAsyncIteration; [aclose] is in AsyncAbandon.v. *)
From Coq Require Import List ZArith Bool.
From Verif.Model Require Import Base PyList Gen.
Import ListNotations.
Local Open Scope py_scope.

(** A StopIteration that leaves the body of a coroutine or an async generator becomes
    RuntimeError (PEP 479, 492, 525). *)
Definition in_async {W X} (m : M W X) : M W X :=
  fun w => match m w with (Raise StopIterationExn, w) => (Raise RuntimeError, w) | r => r end.

(** What the body of [async for value in source] does in an async generator: yield once
    and go round, go round, or break.  [S]: the local variables. *)
Inductive turn (S B : Type) : Type := Give (y : B) (s : S) | Drop (s : S) | Leave.
Arguments Give {S B} y s.
Arguments Drop {S B} s.
Arguments Leave {S B}.

Section Gens.
  Context {W A B S : Type}.

  (** An async generator whose body is [async for value in source: body], after the
      source was opened. *)
  CoFixpoint each (body : S -> A -> M W (turn S B)) (s : S) (g : gen W A) : gen W B :=
    Gen (do st <- in_async (step g);
         match st with
         | Yield x g =>
             do t <- in_async (body s x);
             ret match t with
                 | Give y s => Yield y (each body s g)
                 | Drop s => Skip (each body s g)
                 | Leave => Stop
                 end
         | Skip g => ret (Skip (each body s g))
         | Stop => ret Stop
         end).
  (** Nothing runs until the first element is asked for; then the source's [__aiter__]. *)
  Definition started (src : iterable W A) (loop : gen W A -> gen W B) : gen W B :=
    Gen (do g <- in_async src; ret (Skip (loop g))).
  Definition async_for (body : S -> A -> M W (turn S B)) (s : S) (src : iterable W A) : gen W B := started src (each body s).

  (** async for value in source: async for item in mapping(value): yield item *)
  CoFixpoint collect_loop (f : A -> M W (iterable W B)) (inner : option (gen W B)) (g : gen W A) : gen W B :=
    Gen (match inner with
         | None =>
             do st <- in_async (step g);
             match st with
             | Yield x g => do it <- in_async (f x); do h <- in_async it; ret (Skip (collect_loop f (Some h) g))
             | Skip g => ret (Skip (collect_loop f None g))
             | Stop => ret Stop
             end
         | Some h =>
             do st <- in_async (step h);
             match st with
             | Yield y h => ret (Yield y (collect_loop f (Some h) g))
             | Skip h => ret (Skip (collect_loop f (Some h) g))
             | Stop => ret (Skip (collect_loop f None g))
             end
         end).

  (** async for value in source: yield value; async for value in other: yield value.
      [other]: not opened yet. *)
  CoFixpoint append_loop (other : option (iterable W B)) (g : gen W B) : gen W B :=
    Gen (do st <- in_async (step g);
         match st with
         | Yield x g => ret (Yield x (append_loop other g))
         | Skip g => ret (Skip (append_loop other g))
         | Stop => match other with
                   | None => ret Stop
                   | Some it => do g <- in_async it; ret (Skip (append_loop None g))
                   end
         end).
End Gens.

(** Each operation gives an async generator object: iterating it again continues it
    (see [shared] in Gen.v).  The methods choose, collect, filter, take, skip, tail,
    concat are coroutines that return it; map (asyncseq.py:21-24) wraps it in an
    AsyncSeq; scan is an async generator itself. *)

(** asyncseq.py:287-292 [map], 21-24 *)
Definition map {W A B} (mapper : A -> M W B) (src : iterable W A) : gen W B :=
  async_for (fun _ x => do y <- mapper x; ret (Give y tt)) tt src.
(** asyncseq.py:295-304 [choose], 49-70 *)
Definition choose {W A B} (chooser : A -> M W (option B)) (src : iterable W A) : gen W B :=
  async_for (fun _ x => do o <- chooser x; ret (match o with Some y => Give y tt | None => Drop tt end)) tt src.
(** asyncseq.py:278-284 [filter], 107-126 *)
Definition filter {W A} (predicate : A -> M W bool) (src : iterable W A) : gen W A :=
  async_for (fun _ x => do b <- predicate x; ret (if b : bool then Give x tt else Drop tt)) tt src.
(** asyncseq.py:307-317 [collect], 72-91 *)
Definition collect {W A B} (mapping : A -> M W (iterable W B)) (src : iterable W A) : gen W B :=
  started src (collect_loop mapping None).
(** asyncseq.py:93-105 [concat] *)
Definition concat {W A} (src : iterable W (iterable W A)) : gen W A := started src (collect_loop (fun it => ret it) None).
(** asyncseq.py:154-164 [scan]: yields the state before it opens the sequence *)
Definition scan {W A S} (scanner : S -> A -> M W S) (state : S) (src : iterable W A) : gen W S :=
  Gen (ret (Yield state (async_for (fun s x => do s1 <- scanner s x; ret (Give s1 s1)) state src))).
(** asyncseq.py:166-177 [take] *)
Definition take {W A} (count : Z) (src : iterable W A) : gen W A :=
  async_for (fun i x => ret (if Z.leb count i then Leave else Give x (i + 1)%Z)) 0%Z src.
(** asyncseq.py:179-189 [skip] *)
Definition skip {W A} (count : Z) (src : iterable W A) : gen W A :=
  async_for (fun i x => ret (if Z.leb count i then Give x (i + 1)%Z else Drop (i + 1)%Z)) 0%Z src.
(** asyncseq.py:197-208 [tail] *)
Definition tail {W A} (src : iterable W A) : gen W A :=
  async_for (fun first x => ret (if first : bool then Drop false else Give x false)) true src.
(** asyncseq.py:243-252 [append] *)
Definition append {W A} (other : iterable W A) (src : iterable W A) : gen W A := started src (append_loop (Some other)).
(** asyncseq.py:255-257 [empty] *)
Definition empty {W A} : gen W A := list_gen [].
(** asyncseq.py:260-262 [repeat]: itertools.repeat(value, times or 0) *)
Definition repeat {W A} (value : A) (times : option Z) : gen W A :=
  list_gen (List.repeat value (Z.to_nat (match times with Some n => n | None => 0%Z end))).
(** asyncseq.py:273-275 [range]; builtins.range is called by the first step *)
Definition range {W} (start stop step : Z) : gen W Z :=
  Gen (do xs <- lift (py_range start stop step); ret (Skip (list_gen xs))).

Section Consumers.
  Context {W A S : Type}.
  (** Coroutines; [fuel] bounds the steps of the loop. *)
  (** asyncseq.py:128-137 [fold] *)
  Definition fold (fuel : nat) (folder : S -> A -> M W S) (state : S) (src : iterable W A) : M W S :=
    in_async (do g <- src;
              do r <- for_gen fuel g state (fun s x => do s <- folder s x; ret (inl s));
              match r with inl s => ret s | inr v => match v : Empty_set with end end).
  Fixpoint for_list (f : S -> A -> M W S) (s : S) (xs : list A) : M W S :=
    match xs with [] => ret s | x :: xs => do s <- f s x; for_list f s xs end.
  (** asyncseq.py:139-152 [fold_back] *)
  Definition fold_back (fuel : nat) (folder : A -> S -> M W S) (state : S) (src : iterable W A) : M W S :=
    in_async (do items <- to_list fuel src; for_list (fun s x => folder x s) state (rev items)).
  (** asyncseq.py:191-195 [head] *)
  Definition head (fuel : nat) (src : iterable W A) : M W A :=
    in_async (do g <- src;
              do r <- for_gen fuel g tt (fun _ x => ret (inr x));
              match r with inl _ => raise ValueError | inr x => ret x end).
  (** asyncseq.py:210-215 [length] *)
  Definition length (fuel : nat) (src : iterable W A) : M W Z :=
    in_async (do g <- src;
              do r <- for_gen fuel g 0%Z (fun n _ => ret (inl (n + 1)%Z));
              match r with inl n => ret n | inr v => match v : Empty_set with end end).
  (** asyncseq.py:217-222 [sum]; [add] is +, [zero] is 0 *)
  Definition sum (fuel : nat) (zero : A) (add : A -> A -> M W A) (src : iterable W A) : M W A :=
    in_async (do g <- src;
              do r <- for_gen fuel g zero (fun s x => do s <- add s x; ret (inl s));
              match r with inl s => ret s | inr v => match v : Empty_set with end end).
  (** asyncseq.py:224-231 [max] and 233-240 [min]: all items first, then builtins.max or
      min; [better y m], the comparison y > m or y < m, says that [y] replaces the best
      value so far *)
  Fixpoint best_of (better : A -> A -> M W bool) (m : A) (xs : list A) : M W A :=
    match xs with
    | [] => ret m
    | y :: xs => do b <- better y m; best_of better (if b : bool then y else m) xs
    end.
  Definition best_with (fuel : nat) (better : A -> A -> M W bool) (src : iterable W A) : M W A :=
    in_async (do items <- to_list fuel src;
              match items with
              | [] => raise ValueError
              | x :: xs => best_of better x xs
              end).
  (** the same when the comparison has no effects *)
  Definition best (fuel : nat) (better : A -> A -> bool) : iterable W A -> M W A :=
    best_with fuel (fun y m => ret (better y m)).
End Consumers.
