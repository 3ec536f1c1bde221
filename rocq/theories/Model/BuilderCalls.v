(** expression/core/builder.py and async_builder.py again, now with methods of the builder that may have effects
    and raise: a user's own subclass of Builder that writes a log, asks for something, or
    leaves methods out (those of the base class raise NotImplementedError,
    builder.py:30-47, async_builder.py:33-57).  Bodies are those of Builder.v.  Definitions only. *)
From Coq Require Import List Bool.
From Verif.Model Require Import Base OptionResult Builder.
Import ListNotations.
Local Open Scope py_scope.

(** [bind] is given a function that runs the body on, which also acts on [G], the state of
    the call; [delay] is given a function of the library without effects. *)
Record methods (W V Mo : Type) : Type := {
  m_bind : forall G, Mo -> (V -> M (W * G) Mo) -> M (W * G) Mo;
  m_return : V -> M W Mo;
  m_return_from : Mo -> M W Mo;
  m_combine : Mo -> Mo -> M W Mo;
  m_zero : M W Mo;
  m_delay : (unit -> M W Mo) -> M W Mo;
  m_run : Mo -> M W Mo
}.
Arguments m_bind {W V Mo} _ {G}.
Arguments m_return {W V Mo} _ _.
Arguments m_return_from {W V Mo} _ _.
Arguments m_combine {W V Mo} _ _ _.
Arguments m_zero {W V Mo} _.
Arguments m_delay {W V Mo} _ _.
Arguments m_run {W V Mo} _ _.

(** An effect that leaves the state of the call alone. *)
Definition side {W G X} (m : M W X) : M (W * G) X := fun wg => let '(r, w) := m (fst wg) in (r, (w, snd wg)).

Section Run.
  Context {W A Mo St : Type}.
  Notation V := (pyopt A).
  Variable b : methods W V Mo.
  Variable resume : St -> V -> W -> node V Mo St * W.
  (** what an EffectError carries that a method raises; a StopIteration that a method raises
      carries None *)
  Variable effect : Mo.
  (** a Builder or an AsyncBuilder: what other tasks do while a method of the latter waits is
      part of its effect; [StopIterationExn] stands for StopAsyncIteration there *)
  Variable is_async : bool.
  (** The generator and [state.is_done] *)
  Notation state := (gstate A St * bool)%type.

  (** builder.py:65-85 and async_builder.py:73-91 [_send]: [return_] of a yielded value is
      called inside of the try statement, the calls in its handlers are not.  An asynchronous
      generator returns no value, and any exception sets [is_done]. *)
  Definition msend (value : V) : M (W * state) Mo := fun '(w, (g, done)) =>
    match send resume g value w with
    | (SYield v, g, w) =>
        match m_return b v w with
        | (Ret m, w) => (Ret m, (w, (g, done)))
        | (Raise EffectErrorExn, w) => side (m_return_from b effect) (w, (g, true))
        | (Raise StopIterationExn, w) => (Raise StopIterationExn, (w, (g, true)))
        | (Raise e, w) => (Raise e, (w, (g, done || is_async)))
        end
    | (SFail m, g, w) => side (m_return_from b m) (w, (g, true))
    | (SStop (PyVal v), g, w) =>
        if is_async then (Raise StopIterationExn, (w, (g, true)))
        else side (m_return b (PyVal v)) (w, (g, true))
    | (SStop PyNone, g, w) => (Raise StopIterationExn, (w, (g, true)))
    | (SRaise e, g, w) => (Raise e, (w, (g, done || is_async)))
    end.
  (** builder.py:119-121, async_builder.py:131-133 *)
  Definition mbinder (value : V) : M (W * state) Mo := do r <- msend value; side (m_delay b (fun _ => ret r)).
  (** builder.py:127-133, async_builder.py:140-146: a StopIteration ends the loop with the result so far, wherever it
      comes from *)
  Fixpoint mloop (fuel : nat) (value result : Mo) : M (W * state) Mo :=
    match fuel with
    | 0 => raise OutOfFuel
    | S fuel => fun s =>
        if snd (snd s) then (Ret result, s)
        else match m_bind b value mbinder s with
             | (Ret value, s) =>
                 match side (m_combine b result value) s with
                 | (Ret result, s) => mloop fuel value result s
                 | (Raise StopIterationExn, s) => (Ret result, s)
                 | (Raise e, s) => (Raise e, s)
                 end
             | (Raise StopIterationExn, s) => (Ret result, s)
             | (Raise e, s) => (Raise e, s)
             end
    end.
  (** builder.py:114-135, async_builder.py:126-148; [zero] is called first (116, 128), outside of the try statement, as
      [run] is (135, 148) *)
  Definition mcall (fuel : nat) (s0 : St) : M W Mo := fun w =>
    match m_zero b w with
    | (Raise e, w) => (Raise e, w)
    | (Ret zero, w) =>
        match mbinder PyNone (w, (GBody s0, false)) with
        | (Ret value, s) =>
            match mloop fuel value value s with
            | (Ret result, s) => m_run b result (fst s)
            | (Raise e, s) => (Raise e, fst s)
            end
        | (Raise StopIterationExn, s) => m_run b zero (fst s)
        | (Raise e, s) => (Raise e, fst s)
        end
    end.
  (** builder.py:103-112, async_builder.py:112-124 *)
  Definition mcall_plain (body : M W V) : M W Mo :=
    do v <- body;
    match v with
    | PyNone => do z <- m_zero b; m_run b z
    | PyVal _ => do m <- m_return b v; m_run b m
    end.
End Run.

(** The methods of a class without effects. *)
Definition quiet {W V Mo} (b : builder V Mo) : methods W V Mo := {|
  m_bind := fun G => b_bind b;
  m_return := fun v => ret (b_return b v);
  m_return_from := fun m => ret (b_return_from b m);
  m_combine := fun x y => ret (b_combine b x y);
  m_zero := ret (b_zero b);
  m_delay := b_delay b;
  m_run := fun m => ret (b_run b m)
|}.

(** The calls of methods with their arguments. *)
Inductive called (V Mo : Type) : Type :=
| CBind (m : Mo) | CReturn (v : V) | CReturnFrom (m : Mo) | CCombine (x y : Mo) | CZero | CDelay | CRun (m : Mo).
Arguments CBind {V Mo} m.
Arguments CReturn {V Mo} v.
Arguments CReturnFrom {V Mo} m.
Arguments CCombine {V Mo} x y.
Arguments CZero {V Mo}.
Arguments CDelay {V Mo}.
Arguments CRun {V Mo} m.

(** A subclass whose methods write down that they were called, and with what, and then either
    raise, as [faults] says, or do what the methods of [b] do. *)
Section Spied.
  Context {W V Mo : Type} (faults : called V Mo -> option exn).
  Definition note (c : called V Mo) : M (list (called V Mo) * W) unit := fun '(log, w) =>
    (match faults c with None => Ret tt | Some e => Raise e end, (log ++ [c], w)).
  Definition spied (b : builder V Mo) : methods (list (called V Mo) * W) V Mo := {|
    m_bind := fun G m f => do _ <- side (note (CBind m)); b_bind b m f;
    m_return := fun v => do _ <- note (CReturn v); ret (b_return b v);
    m_return_from := fun m => do _ <- note (CReturnFrom m); ret (b_return_from b m);
    m_combine := fun x y => do _ <- note (CCombine x y); ret (b_combine b x y);
    m_zero := do _ <- note CZero; ret (b_zero b);
    m_delay := fun f => do _ <- note CDelay; b_delay b f;
    m_run := fun m => do _ <- note (CRun m); ret (b_run b m)
  |}.
End Spied.
(** A body that does not touch the log. *)
Definition beside {L W V Mo St} (resume : St -> V -> W -> node V Mo St * W) (s : St) (v : V) (w : L * W) : node V Mo St * (L * W) :=
  let '(n, w1) := resume s v (snd w) in (n, (fst w, w1)).
