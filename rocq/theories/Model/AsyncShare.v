(** Async iterators of expression/collections/asyncseq.py with the suspensions of their
    awaits: several tasks may have one of them, and an exception can be thrown into an await
    that is suspended (cancellation of the task, asyncio.wait_for that times out).  As
    AsyncSeq.v, but an await that suspends the task is visible, and every outcome leaves an
    iterator behind.  CPython 3.10 to 3.13, trusted: what is thrown into a suspended await
    goes to the innermost one; an async generator object that is asked while a request of
    another task is suspended raises RuntimeError and is not disturbed; an async generator
    left by an exception is over.  Closing ([aclose], the loop's finalizer) is in
    AsyncAbandon.v.  Definitions only. *)
From Coq Require Import List ZArith Bool.
From Verif.Model Require Import Base PyList AsyncSeq.
Import ListNotations.
Local Open Scope py_scope.

(** One internal step; [PWait]: the task is suspended, and goes on with [k None] or has [e]
    thrown into it, [k (Some e)]. *)
Inductive pstep (A G : Type) : Type := PYield (a : A) (g : G) | PSkip (g : G) | PStop (g : G) | PRaise (e : exn) (g : G) | PWait (k : option exn -> G).
Arguments PYield {A G}.  Arguments PSkip {A G}.  Arguments PStop {A G}.  Arguments PRaise {A G}.  Arguments PWait {A G}.
CoInductive pgen (W A : Type) : Type := PGen (next : W -> pstep A (pgen W A) * W).
Arguments PGen {W A}.
(** As in AsyncSeq.v a StopIteration stands for the end. *)
Definition pnext {W A} (g : pgen W A) (w : W) : pstep A (pgen W A) * W :=
  match g with
  | PGen next => match next w with (PRaise StopIterationExn g, w) => (PStop g, w) | r => r end
  end.
Definition piterable (W A : Type) : Type := M W (pgen W A).
(** An async generator that has returned or raised. *)
CoFixpoint p_over {W A} : pgen W A := PGen (fun w => (PStop p_over, w)).
(** StopIteration leaves async code as RuntimeError. *)
Definition p_raise {W A} (e : exn) : pstep A (pgen W A) :=
  PRaise (match e with StopIterationExn => RuntimeError | e => e end) p_over.

Section Gens.
  Context {W A B S : Type}.
  (** async for value in source: body.  The await of the source's [__anext__] passes on what
      is thrown. *)
  CoFixpoint p_each (body : S -> A -> M W (turn S B)) (s : S) (g : pgen W A) : pgen W B :=
    PGen (fun w =>
      match pnext g w with
      | (PYield x g, w) =>
          match body s x w with
          | (Ret (Give y s), w) => (PYield y (p_each body s g), w)
          | (Ret (Drop s), w) => (PSkip (p_each body s g), w)
          | (Ret Leave, w) => (PStop p_over, w)
          | (Raise e, w) => (p_raise e, w)
          end
      | (PSkip g, w) => (PSkip (p_each body s g), w)
      | (PStop _, w) => (PStop p_over, w)
      | (PRaise e _, w) => (PRaise e p_over, w)
      | (PWait k, w) => (PWait (fun r => p_each body s (k r)), w)
      end).
  (** Nothing runs until the first element is asked for. *)
  Definition p_started (src : piterable W A) (loop : pgen W A -> pgen W B) : pgen W B :=
    PGen (fun w => match src w with (Ret g, w) => (PSkip (loop g), w) | (Raise e, w) => (p_raise e, w) end).

  (** async for value in source: async for item in mapping(value): yield item *)
  CoFixpoint p_collect_loop (f : A -> M W (piterable W B)) (inner : option (pgen W B)) (g : pgen W A) : pgen W B :=
    PGen (fun w =>
      match inner with
      | None =>
          match pnext g w with
          | (PYield x g, w) =>
              match f x w with
              | (Ret it, w) => match it w with
                               | (Ret h, w) => (PSkip (p_collect_loop f (Some h) g), w)
                               | (Raise e, w) => (p_raise e, w)
                               end
              | (Raise e, w) => (p_raise e, w)
              end
          | (PSkip g, w) => (PSkip (p_collect_loop f None g), w)
          | (PStop _, w) => (PStop p_over, w)
          | (PRaise e _, w) => (PRaise e p_over, w)
          | (PWait k, w) => (PWait (fun r => p_collect_loop f None (k r)), w)
          end
      | Some h =>
          match pnext h w with
          | (PYield y h, w) => (PYield y (p_collect_loop f (Some h) g), w)
          | (PSkip h, w) => (PSkip (p_collect_loop f (Some h) g), w)
          | (PStop _, w) => (PSkip (p_collect_loop f None g), w)
          | (PRaise e _, w) => (PRaise e p_over, w)
          | (PWait k, w) => (PWait (fun r => p_collect_loop f (Some (k r)) g), w)
          end
      end).

  (** async for value in source: yield value; async for value in other: yield value *)
  CoFixpoint p_append_loop (other : option (piterable W B)) (g : pgen W B) : pgen W B :=
    PGen (fun w =>
      match pnext g w with
      | (PYield x g, w) => (PYield x (p_append_loop other g), w)
      | (PSkip g, w) => (PSkip (p_append_loop other g), w)
      | (PStop _, w) =>
          match other with
          | None => (PStop p_over, w)
          | Some it => match it w with
                       | (Ret h, w) => (PSkip (p_append_loop None h), w)
                       | (Raise e, w) => (p_raise e, w)
                       end
          end
      | (PRaise e _, w) => (PRaise e p_over, w)
      | (PWait k, w) => (PWait (fun r => p_append_loop other (k r)), w)
      end).
End Gens.

(** asyncseq.py:287-292 [map], 21-24 *)
Definition p_map {W A B} (mapper : A -> M W B) (src : piterable W A) : pgen W B :=
  p_started src (p_each (fun _ x => do y <- mapper x; ret (Give y tt)) tt).
(** asyncseq.py:295-304 [choose], 49-70 *)
Definition p_choose {W A B} (chooser : A -> M W (option B)) (src : piterable W A) : pgen W B :=
  p_started src (p_each (fun _ x => do o <- chooser x; ret (match o with Some y => Give y tt | None => Drop tt end)) tt).
(** asyncseq.py:278-284 [filter], 107-126 *)
Definition p_filter {W A} (predicate : A -> M W bool) (src : piterable W A) : pgen W A :=
  p_started src (p_each (fun _ x => do b <- predicate x; ret (if b : bool then Give x tt else Drop tt)) tt).
(** asyncseq.py:307-317 [collect], 72-91; [concat] (93-105) is the same with the sequences
    that the source gives in the place of [mapping(value)] *)
Definition p_collect {W A B} (mapping : A -> M W (piterable W B)) (src : piterable W A) : pgen W B :=
  p_started src (p_collect_loop mapping None).
(** asyncseq.py:154-164 [scan]: yields the state before it opens the sequence *)
Definition p_scan {W A S} (scanner : S -> A -> M W S) (state : S) (src : piterable W A) : pgen W S :=
  PGen (fun w => (PYield state (p_started src (p_each (fun s x => do s1 <- scanner s x; ret (Give s1 s1)) state)), w)).
(** asyncseq.py:166-177 [take] *)
Definition p_take {W A} (count : Z) (src : piterable W A) : pgen W A :=
  p_started src (p_each (fun i x => ret (if Z.leb count i then Leave else Give x (i + 1)%Z)) 0%Z).
(** asyncseq.py:179-189 [skip] *)
Definition p_skip {W A} (count : Z) (src : piterable W A) : pgen W A :=
  p_started src (p_each (fun i x => ret (if Z.leb count i then Give x (i + 1)%Z else Drop (i + 1)%Z)) 0%Z).
(** asyncseq.py:197-208 [tail] *)
Definition p_tail {W A} (src : piterable W A) : pgen W A :=
  p_started src (p_each (fun first x => ret (if first : bool then Drop false else Give x false)) true).
(** asyncseq.py:243-252 [append] *)
Definition p_append {W A} (other : piterable W A) (src : piterable W A) : pgen W A := p_started src (p_append_loop (Some other)).

(** asyncseq.py:255-257 [empty], 260-262 [repeat], 273-275 [range]: they await nothing. *)
CoFixpoint p_list {W A} (xs : list A) : pgen W A :=
  PGen (fun w => (match xs with [] => PStop p_over | x :: xs => PYield x (p_list xs) end, w)).
Definition p_empty {W A} : pgen W A := p_list [].
Definition p_repeat {W A} (value : A) (times : option Z) : pgen W A :=
  p_list (List.repeat value (Z.to_nat (match times with Some n => n | None => 0%Z end))).
Definition p_range {W} (start stop step : Z) : pgen W Z :=
  PGen (fun w => (match py_range start stop step with Ret xs => PSkip (p_list xs) | Raise e => p_raise e end, w)).

(** A source of the user that awaits something before each element and gives the elements of
    a queue: an object of a class, whose [__anext__] can be asked again after an exception
    was thrown into it and then still has the element it was waiting for. *)
CoFixpoint p_queue {W A} (xs : list A) (waited : bool) : pgen W A :=
  PGen (fun w => match xs with
                 | [] => (PStop (p_queue [] false), w)
                 | x :: rest =>
                     if waited then (PYield x (p_queue rest false), w)
                     else (PWait (fun r => match r with
                                           | None => p_queue xs true
                                           | Some e => PGen (fun w => (PRaise e (p_queue xs false), w))
                                           end), w)
                 end).

(** * An async generator object that several tasks have *)
(** Its state: at rest, or a request is suspended in it. *)
Inductive ostate (W A : Type) : Type := Rests (g : pgen W A) | Busy.
Arguments Rests {W A}.  Arguments Busy {W A}.
(** A request to the object, whose state is in the world; [resumed]: the suspended request
    goes on. *)
CoFixpoint p_object {W A} (resumed : option (pgen W A)) : pgen (ostate W A * W) A :=
  PGen (fun ow =>
    match (match resumed with Some g => Some g | None => match fst ow with Rests g => Some g | Busy => None end end) with
    | None => (PRaise RuntimeError (p_object None), ow)
    | Some g =>
        match pnext g (snd ow) with
        | (PYield x g, w) => (PYield x (p_object None), (Rests g, w))
        | (PSkip g, w) => (PSkip (p_object None), (Rests g, w))
        | (PStop g, w) => (PStop (p_object None), (Rests g, w))
        | (PRaise e g, w) => (PRaise e (p_object None), (Rests g, w))
        | (PWait k, w) => (PWait (fun r => p_object (Some (k r))), (Busy, w))
        end
    end).
Definition p_shared {W A} : pgen (ostate W A * W) A := p_object None.

(** * Tasks *)
(** What a task has: an iterator that it can ask, or a request that is suspended. *)
Inductive task (W A : Type) : Type := Ready (g : pgen W A) | Suspended (k : option exn -> pgen W A).
Arguments Ready {W A}.  Arguments Suspended {W A}.
(** What the loop does next: task [j] asks, its await goes on, an exception is thrown into it;
    something else runs. *)
Inductive event (W : Type) : Type := Ask (j : nat) | Goes (j : nat) | Throw (j : nat) (e : exn) | Other (f : W -> W).
Arguments Ask {W}.  Arguments Goes {W}.  Arguments Throw {W}.  Arguments Other {W}.
Inductive outcome (A : Type) : Type := Got (x : A) | Ended | Failed (e : exn) | Waiting | Done | Impossible.
Arguments Got {A}.  Arguments Ended {A}.  Arguments Failed {A}.  Arguments Waiting {A}.  Arguments Done {A}.  Arguments Impossible {A}.

(** [await anext(g)] up to the next suspension *)
Fixpoint p_run {W A} (fuel : nat) (g : pgen W A) (w : W) : outcome A * (task W A * W) :=
  match fuel with
  | 0 => (Failed OutOfFuel, (Ready g, w))
  | S fuel =>
      match pnext g w with
      | (PYield x g, w) => (Got x, (Ready g, w))
      | (PSkip g, w) => p_run fuel g w
      | (PStop g, w) => (Ended, (Ready g, w))
      | (PRaise e g, w) => (Failed e, (Ready g, w))
      | (PWait k, w) => (Waiting, (Suspended k, w))
      end
  end.
Fixpoint put {X} (j : nat) (x : X) (l : list X) : list X :=
  match l, j with [], _ => [] | _ :: l, 0 => x :: l | y :: l, S j => y :: put j x l end.
Definition happens {W A} (fuel : nat) (ev : event W) (t : list (task W A)) (w : W) : outcome A * (list (task W A) * W) :=
  match ev with
  | Ask j => match nth_error t j with
             | Some (Ready g) => let '(o, (s, w)) := p_run fuel g w in (o, (put j s t, w))
             | _ => (Impossible, (t, w))
             end
  | Goes j => match nth_error t j with
              | Some (Suspended k) => let '(o, (s, w)) := p_run fuel (k None) w in (o, (put j s t, w))
              | _ => (Impossible, (t, w))
              end
  | Throw j e => match nth_error t j with
                 | Some (Suspended k) => let '(o, (s, w)) := p_run fuel (k (Some e)) w in (o, (put j s t, w))
                 | _ => (Impossible, (t, w))
                 end
  | Other f => (Done, (t, f w))
  end.
Fixpoint history {W A} (fuel : nat) (es : list (event W)) (t : list (task W A)) (w : W) : list (outcome A) * (list (task W A) * W) :=
  match es with
  | [] => ([], (t, w))
  | e :: es => let '(o, (t, w)) := happens fuel e t w in let '(os, tw) := history fuel es t w in (o :: os, tw)
  end.
