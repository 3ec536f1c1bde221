(** Model of the small coroutines of expression/core/aiotools.py:120-161 and of
    run_synchronously, which drives one to its end.  Definitions only. *)
From Coq Require Import List Bool Arith.
From Verif.Model Require Import Base.
Import ListNotations.

(** The code of a coroutine: [Give r] returns or raises, [Act f k] has an effect on the
    world and goes on, [Await id k] awaits the coroutine object [id] and goes on with what
    that gives (so [k] may catch exceptions).  Suspending is an effect: [f] is then what the
    other tasks do meanwhile.  Cancellation from outside is not modelled. *)
Inductive coro (W A : Type) : Type :=
| Give (r : res A)
| Act (f : W -> W) (k : W -> coro W A)
| Await (id : nat) (k : res A -> coro W A).
Arguments Give {W A} r.
Arguments Act {W A} f k.
Arguments Await {W A} id k.

(** The coroutine objects: [Some c] was not awaited yet, [None] was.  Awaiting one a
    second time raises RuntimeError, as does awaiting one that does not exist here. *)
Definition objects (W A : Type) : Type := list (option (coro W A)).
Fixpoint take_object {W A} (id : nat) (h : objects W A) {struct h} : option (coro W A * objects W A) :=
  match h, id with
  | [], _ => None
  | o :: h, 0 => match o with Some c => Some (c, None :: h) | None => None end
  | o :: h, S id => option_map (fun ch => (fst ch, o :: snd ch)) (take_object id h)
  end.

Section Run.
  Context {W A : Type}.
  (** What leaves a coroutine: StopIteration becomes RuntimeError (PEP 479). *)
  Definition leave (r : res A) : res A := match r with Raise StopIterationExn => Raise RuntimeError | r => r end.
  (** Running a coroutine to its end; [limit] is the number of nested awaits the
      interpreter's recursion limit has room for. *)
  Fixpoint drive (limit : nat) (c : coro W A) : W * objects W A -> res A * (W * objects W A) :=
    match limit with
    | 0 => fun s => (Raise RecursionError, s)
    | S limit =>
        (fix go (c : coro W A) (s : W * objects W A) : res A * (W * objects W A) :=
           match c with
           | Give r => (leave r, s)
           | Act f k => go (k (fst s)) (f (fst s), snd s)
           | Await id k =>
               match take_object id (snd s) with
               | None => go (k (Raise RuntimeError)) s
               | Some (c, h) => let '(r, s) := drive limit c (fst s, h) in go (k r) s
               end
           end) c
    end.
  (** aiotools.py:120-126 [run_synchronously]; [in_loop]: the calling thread runs an event
      loop, for which asyncio.run raises before anything is run. *)
  Definition run_synchronously (limit : nat) (in_loop : bool) (id : nat) (s : W * objects W A) : res A * (W * objects W A) :=
    if in_loop then (Raise RuntimeError, s) else drive limit (Await id (fun r => Give r)) s.
  (** aiotools.py:129-131 [singleton], 145-146 [empty] ([none] is None), 149-160 [from_result] *)
  Definition singleton (value : A) : coro W A := Give (Ret value).
  Definition empty (none : A) : coro W A := Give (Ret none).
  Definition from_result (result : A) : coro W A := Give (Ret result).
  (** aiotools.py:134-142 [sleep]; [pause msecs] is what happens meanwhile *)
  Definition sleep (none : A) (pause : nat -> W -> W) (msecs : nat) : coro W A := Act (pause msecs) (fun _ => Give (Ret none)).
End Run.
