(** Model of expression/core/builder.py, expression/core/async_builder.py and the builders
    in expression/effect/.  A decorated function body is a Python generator; it is given
    as a machine with states [St] and a function [resume] that runs the body from one
    suspension to the next, with any effect on the world [W].  Bodies whose code between
    two suspensions does not terminate are not modelled.  Definitions only. *)
From Coq Require Import List Bool.
From Verif.Model Require Import Base OptionResult.
Import ListNotations.
Local Open Scope py_scope.

(** How the body comes to its next suspension or end. *)
Inductive node (V Mo St : Type) : Type :=
| NReturn (v : V)                            (** return v; the end of the body is [return None] *)
| NThrow (e : exn)                           (** an exception other than EffectError leaves the body *)
| NFail (m : Mo)                             (** an [EffectError(m)] leaves the body *)
| NYield (v : V) (s : St)                    (** yield v *)
| NFromSeq (v : V) (vs : list V) (s : St)    (** yield from a Seq with the elements v, vs... *)
| NFromList (v : V) (vs : list V) (s : St).  (** yield from a list, tuple or other plain iterable *)
Arguments NReturn {V Mo St} v.
Arguments NThrow {V Mo St} e.
Arguments NFail {V Mo St} m.
Arguments NYield {V Mo St} v s.
Arguments NFromSeq {V Mo St} v vs s.
Arguments NFromList {V Mo St} v vs s.

(** The methods of a builder class. *)
Record builder (V Mo : Type) : Type := {
  b_bind : forall W, Mo -> (V -> M W Mo) -> M W Mo;
  b_return : V -> Mo;
  b_return_from : Mo -> Mo;
  b_combine : Mo -> Mo -> Mo;
  b_zero : Mo;
  b_delay : forall W, (unit -> M W Mo) -> M W Mo;
  b_run : Mo -> Mo
}.
Arguments b_bind {V Mo} _ {W}.
Arguments b_return {V Mo} _ _.
Arguments b_return_from {V Mo} _ _.
Arguments b_combine {V Mo} _ _ _.
Arguments b_zero {V Mo} _.
Arguments b_delay {V Mo} _ {W}.
Arguments b_run {V Mo} _ _.

Section Run.
  Context {W A Mo St : Type}.
  Notation V := (pyopt A).
  Variable b : builder V Mo.
  Variable resume : St -> V -> W -> node V Mo St * W.

  (** State of the generator object: at a suspension of the body, inside a yield from, or
      finished. *)
  Inductive gstate : Type :=
  | GBody (s : St)
  | GSeq (vs : list V) (s : St)
  | GList (vs : list V) (s : St)
  | GDone.

  (** Outcome of [gen.send]. *)
  Inductive sent : Type :=
  | SYield (v : V)
  | SStop (v : V)      (** StopIteration(v) *)
  | SFail (m : Mo)     (** EffectError(m) *)
  | SRaise (e : exn).

  (** The body runs on.  An explicit StopIteration that leaves the body becomes
      RuntimeError (PEP 479). *)
  Definition run_body (s : St) (v : V) (w : W) : sent * gstate * W :=
    match resume s v w with
    | (NReturn v, w) => (SStop v, GDone, w)
    | (NThrow e, w) => (SRaise (match e with StopIterationExn => RuntimeError | _ => e end), GDone, w)
    | (NFail m, w) => (SFail m, GDone, w)
    | (NYield v s, w) => (SYield v, GBody s, w)
    | (NFromSeq v vs s, w) => (SYield v, GSeq vs s, w)
    | (NFromList v vs s, w) => (SYield v, GList vs s, w)
    end.

  (** Python's [gen.send(v)].  Inside [yield from xs] the value goes to the iterator of
      [xs]: the generator that Seq.__iter__ returns (seq.py:385-388, 420-423) ignores it; a
      plain iterator is advanced when the value is None and otherwise has no [send]
      (AttributeError, here not caught by the body). *)
  Definition send (g : gstate) (v : V) (w : W) : sent * gstate * W :=
    match g with
    | GBody s => run_body s v w
    | GSeq (u :: us) s => (SYield u, GSeq us s, w)
    | GSeq [] s => run_body s PyNone w
    | GList us s =>
        match v, us with
        | PyVal _, _ => (SRaise AttributeError, GDone, w)
        | PyNone, u :: us => (SYield u, GList us s, w)
        | PyNone, [] => run_body s PyNone w
        end
    | GDone => (SStop PyNone, GDone, w)
    end.

  (** World of a running builder: the user's world, the generator and [state.is_done]. *)
  Record bworld : Type := BW { bw : W; bw_gen : gstate; bw_done : bool }.

  (** builder.py:65-85 [_send] *)
  Definition bsend (value : V) : M bworld Mo := fun s =>
    match send (bw_gen s) value (bw s) with
    | (SYield v, g, w) => (Ret (b_return b v), BW w g (bw_done s))
    | (SFail m, g, w) => (Ret (b_return_from b m), BW w g true)
    | (SStop (PyVal v), g, w) => (Ret (b_return b (PyVal v)), BW w g true)
    | (SStop PyNone, g, w) => (Raise StopIterationExn, BW w g true)
    | (SRaise e, g, w) => (Raise e, BW w g (bw_done s))
    end.
  (** builder.py:119-121 [binder] *)
  Definition binder (value : V) : M bworld Mo :=
    do r <- bsend value; b_delay b (fun _ => ret r).

  (** builder.py:127-129: the while loop with the two variables; [fuel] bounds the number
      of iterations.  StopIteration ends it with the result so far (131-133). *)
  Fixpoint loop (fuel : nat) (value result : Mo) : M bworld Mo :=
    match fuel with
    | 0 => raise OutOfFuel
    | S fuel => fun s =>
        if bw_done s then (Ret result, s)
        else match b_bind b value binder s with
             | (Ret value, s) => loop fuel value (b_combine b result value) s
             | (Raise StopIterationExn, s) => (Ret result, s)
             | (Raise e, s) => (Raise e, s)
             end
    end.
  (** builder.py:114-135: a generator body.  A generator that was not started can only be
      sent None. *)
  Definition call_gen (fuel : nat) (s0 : St) : M W Mo := fun w =>
    match binder PyNone (BW w (GBody s0) false) with
    | (Ret value, s) =>
        match loop fuel value value s with
        | (Ret result, s) => (Ret (b_run b result), bw s)
        | (Raise e, s) => (Raise e, bw s)
        end
    | (Raise StopIterationExn, s) => (Ret (b_run b (b_zero b)), bw s)
    | (Raise e, s) => (Raise e, bw s)
    end.
  (** builder.py:103-112: a body without a yield statement *)
  Definition call_plain (body : M W V) : M W Mo :=
    do v <- body;
    ret (match v with PyNone => b_run b (b_zero b) | PyVal _ => b_run b (b_return b v) end).

  (** async_builder.py:73-91 [_send].  The generator is asynchronous: it has no return
      value and no yield from; [await m] of Nothing or Error raises EffectError
      (option.py:312-320, result.py:275-283) and of a value just goes on.  What other
      tasks do while this one is suspended is part of the effect of [resume]. *)
  Definition asend (value : V) : M bworld Mo := fun s =>
    match send (bw_gen s) value (bw s) with
    | (SYield v, g, w) => (Ret (b_return b v), BW w g (bw_done s))
    | (SFail m, g, w) => (Ret (b_return_from b m), BW w g true)
    | (SStop _, g, w) => (Raise StopIterationExn, BW w g true)
    | (SRaise e, g, w) => (Raise e, BW w g true)
    end.
  (** async_builder.py:131-133 *)
  Definition abinder (value : V) : M bworld Mo :=
    do r <- asend value; b_delay b (fun _ => ret r).
  (** async_builder.py:140-146; [StopIterationExn] stands for StopAsyncIteration *)
  Fixpoint aloop (fuel : nat) (value result : Mo) : M bworld Mo :=
    match fuel with
    | 0 => raise OutOfFuel
    | S fuel => fun s =>
        if bw_done s then (Ret result, s)
        else match b_bind b value abinder s with
             | (Ret value, s) => aloop fuel value (b_combine b result value) s
             | (Raise StopIterationExn, s) => (Ret result, s)
             | (Raise e, s) => (Raise e, s)
             end
    end.
  (** async_builder.py:126-148 *)
  Definition acall_gen (fuel : nat) (s0 : St) : M W Mo := fun w =>
    match abinder PyNone (BW w (GBody s0) false) with
    | (Ret value, s) =>
        match aloop fuel value value s with
        | (Ret result, s) => (Ret (b_run b result), bw s)
        | (Raise e, s) => (Raise e, bw s)
        end
    | (Raise StopIterationExn, s) => (Ret (b_run b (b_zero b)), bw s)
    | (Raise e, s) => (Raise e, bw s)
    end.
  (** async_builder.py:112-124: a coroutine without yield; an EffectError that leaves it is
      not caught here *)
  Definition acall_plain (body : M W V) : M W Mo :=
    do v <- body;
    ret (match v with PyNone => b_run b (b_zero b) | PyVal _ => b_run b (b_return b v) end).
End Run.
Arguments gstate A St : clear implicits.

(** [x = yield from m] in a body: option.py:295-300 [Option.__iter__] yields the value and
    returns what is sent, or raises EffectError(Nothing); result.py:268-273. *)
Definition yield_from_option {V St} (m : option V) (s : St) : node V (option V) St :=
  match m with Some value => NYield value s | None => NFail None end.
Definition yield_from_result {V E St} (m : result V E) (s : St) : node V (result V E) St :=
  match m with Ok value => NYield value s | Err error => NFail (Err error) end.

Section Builders.
  Context {A E : Type}.
  Notation V := (pyopt A).

  (** effect/option.py:15-96; run is inherited (builder.py:57-62) *)
  Definition option_builder : builder V (option V) := {|
    b_bind := fun W xs fn => opt_bind xs fn;
    b_return := fun x => Some x;
    b_return_from := fun xs => xs;
    b_combine := fun xs ys => match xs with Some _ => ys | None => None end;
    b_zero := None;
    b_delay := fun W fn => fn tt;
    b_run := fun computation => computation
  |}.
  (** effect/result.py:16-87; delay and run are inherited *)
  Definition result_builder : builder V (result V E) := {|
    b_bind := fun W xs fn => res_bind xs fn;
    b_return := fun x => Ok x;
    b_return_from := fun xs => xs;
    b_combine := fun xs ys => match xs with Ok _ => ys | Err error => Err error end;
    b_zero := Ok PyNone;
    b_delay := fun W fn => fn tt;
    b_run := fun computation => computation
  |}.
  (** effect/async_option.py:27-120 and effect/async_result.py:28-121 *)
  Definition async_option_builder : builder V (option V) := {|
    b_bind := fun W xs fn => match xs with Some value => fn value | None => ret None end;
    b_return := fun x => Some x;
    b_return_from := fun xs => xs;
    b_combine := fun xs ys => match xs with Some _ => ys | None => None end;
    b_zero := None;
    b_delay := fun W fn => fn tt;
    b_run := fun computation => computation
  |}.
  Definition async_result_builder : builder V (result V E) := {|
    b_bind := fun W xs fn => match xs with Ok value => fn value | Err error => ret (Err error) end;
    b_return := fun x => Ok x;
    b_return_from := fun xs => xs;
    b_combine := fun xs ys => match xs with Ok _ => ys | Err error => Err error end;
    b_zero := Ok PyNone;
    b_delay := fun W fn => fn tt;
    b_run := fun computation => computation
  |}.

  (** The sequences that the seq builder makes: a Seq around a list, a list, and the lazy
      concatenation of two sequences (seq.py:490-507). *)
  Inductive sq : Type :=
  | SqSeq (vs : list V)
  | SqList (vs : list V)
  | SqConcat (x y : sq).
  Fixpoint sq_elems (x : sq) : list V :=
    match x with SqSeq vs | SqList vs => vs | SqConcat x y => sq_elems x ++ sq_elems y end.
  (** Generator frames that are active at once when [x] is iterated: Seq.__iter__ and
      SeqGen.__iter__ make a generator (seq.py:385-388, 420-423), and concat's [gen]
      (503-505) delegates to the iterators of its parts. *)
  Fixpoint sq_frames (x : sq) : nat :=
    match x with SqSeq _ => 1 | SqList _ => 0 | SqConcat x y => 2 + Nat.max (sq_frames x) (sq_frames y) end.
  (** Iterating with a recursion limit. *)
  Definition sq_iterate (limit : nat) (x : sq) : res (list V) :=
    if Nat.leb (sq_frames x) limit then Ret (sq_elems x) else Raise RecursionError.
  (** effect/seq.py:13-27: [[y for x in xs for y in fn(x)]] *)
  Fixpoint sq_bind_list {W} (xs : list V) (fn : V -> M W sq) : M W (list V) :=
    match xs with
    | [] => ret []
    | x :: xs => do ys <- fn x; do zs <- sq_bind_list xs fn; ret (sq_elems ys ++ zs)
    end.
  (** effect/seq.py:13-99 *)
  Definition seq_builder : builder V sq := {|
    b_bind := fun W xs fn => do ys <- sq_bind_list (sq_elems xs) fn; ret (SqList ys);
    b_return := fun x => SqSeq [x];
    b_return_from := fun xs => xs;
    b_combine := fun xs ys => SqConcat xs ys;
    b_zero := SqSeq [];
    b_delay := fun W fn => fn tt;
    b_run := fun computation => computation
  |}.
End Builders.
Arguments sq A : clear implicits.
