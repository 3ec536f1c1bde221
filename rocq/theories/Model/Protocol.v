(** The iterators of expression/collections/seq.py as generators: [send], [throw] and
    [close].  [Seq.__iter__] (seq.py:385-388) and [SeqGen.__iter__] (420-423) give a
    generator expression over what they wrap, "a proper generator that can handle send, throw,
    and close"; so every iterator of a Seq and of the results of map, collect, concat, append,
    choose, skip, take, pairwise and delay is one.  Sources are the iterators of Abandon.v.
    The references that the traceback of a raised exception keeps for a while are not
    modelled.  Definitions only. *)
From Coq Require Import List ZArith Bool.
From Verif.Model Require Import Base OptionResult Resume Abandon.
Import ListNotations.
Local Open Scope py_scope.

(** A generator: [send(v)], [throw(e)] and [close()]; [next()] is [send(None)].  After a
    [RSkip] it goes on by itself, that is with [send(None)]. *)
CoInductive pgen (W V A : Type) : Type :=
  PGen (p_send : pyopt V -> W -> rstep A (pgen W V A) * W) (p_throw : exn -> W -> rstep A (pgen W V A) * W) (p_close : W -> res unit * pgen W V A * W).
Arguments PGen {W V A}.
Definition p_send {W V A} (g : pgen W V A) := match g with PGen f _ _ => f end.
Definition p_throw {W V A} (g : pgen W V A) := match g with PGen _ f _ => f end.
Definition p_close {W V A} (g : pgen W V A) := match g with PGen _ _ f => f end.

(** A generator that has ended. *)
CoFixpoint p_done {W V A} : pgen W V A :=
  PGen (fun _ w => (RStop p_done, w)) (fun e w => (RRaise e p_done, w)) (fun w => (Ret tt, p_done, w)).

(** (x for x in g): seq.py:388, 423.  A value can be sent only after the start.  The generator
    expression has no handlers: an exception thrown at its yield leaves it, and the reference
    to [g] goes. *)
CoFixpoint p_wrap {W V A} (started : bool) (g : ogen W A) : pgen W V A :=
  PGen (fun v w =>
          match started, v with
          | false, PyVal _ => (RRaise TypeError (p_wrap false g), w)
          | _, _ =>
              match onext g w with
              | (RYield x g, w) => (RYield x (p_wrap true g), w)
              | (RSkip g, w) => (RSkip (p_wrap true g), w)
              | (RStop g, w) => (RStop p_done, drop g w)
              | (RRaise e g, w) => (RRaise e p_done, drop g w)
              end
          end)
       (fun e w => (RRaise (leaving_exn e) p_done, drop g w))
       (fun w => (Ret tt, p_done, drop g w)).

(** A generator of the user as a source.  When its last reference goes it is closed, and an
    exception that this raises is written to stderr and forgotten. *)
CoFixpoint p_source {W V A} (p : pgen W V A) : ogen W A :=
  OGen (fun w => match p_send p PyNone w with
                 | (RYield x p, w) => (RYield x (p_source p), w)
                 | (RSkip p, w) => (RSkip (p_source p), w)
                 | (RStop p, w) => (RStop (p_source p), w)
                 | (RRaise e p, w) => (RRaise e (p_source p), w)
                 end)
       (fun w => snd (p_close p w)) (fun w => snd (p_close p w)).

(** A generator function of the user, suspended inside of
    [try: while xs: yield xs.pop(0); except E: xs = handler(E), and again; finally: exit()];
    [handler] gives None for exceptions that are not handled. *)
CoFixpoint p_user {W V A} (handler : exn -> option (list A)) (exit : M W unit) (xs : list A) : pgen W V A :=
  let finish r w := match exit w with (Ret _, w) => (r, w) | (Raise e, w) => (RRaise (leaving_exn e) p_done, w) end in
  PGen (fun _ w => match xs with x :: xs => (RYield x (p_user handler exit xs), w) | [] => finish (RStop p_done) w end)
       (fun e w => match handler e with
                   | Some ys => match ys with y :: ys => (RYield y (p_user handler exit ys), w) | [] => finish (RStop p_done) w end
                   | None => finish (RRaise e p_done) w
                   end)
       (fun w => match exit w with (Ret _, w) => (Ret tt, p_done, w) | (Raise e, w) => (Raise (leaving_exn e), p_done, w) end).
