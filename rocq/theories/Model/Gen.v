(** Python iteration: iterators as coinductive generators over a world. *)
From Coq Require Import List.
From Verif.Model Require Import Base.
Import ListNotations.
Local Open Scope py_scope.

(** One internal step of an iterator: it hands out an element, works on without handing
    one out, or ends (StopIteration).  A [next()] call in Python is a run of steps up to
    the first one that is not [Skip]. *)
Inductive gstep (A G : Type) : Type := Yield (a : A) (g : G) | Skip (g : G) | Stop.
Arguments Yield {A G} a g.
Arguments Skip {A G} g.
Arguments Stop {A G}.

(** An iterator in some state.  Each step may have effects and may raise; an iterator
    that has ended or raised is not stepped again.  A StopIteration that leaves it, from
    wherever it comes, is its end. *)
CoInductive gen (W A : Type) : Type := Gen (next : W -> res (gstep A (gen W A)) * W).
Arguments Gen {W A} next.
Definition step {W A} (g : gen W A) : M W (gstep A (gen W A)) := fun w =>
  match g with
  | Gen next => match next w with (Raise StopIterationExn, w) => (Ret Stop, w) | r => r end
  end.

(** An iterable: what [iter()] does on it.  Iterating it twice calls [iter()] twice. *)
Definition iterable (W A : Type) : Type := M W (gen W A).

(** The iterator of a list or tuple. *)
CoFixpoint list_gen {W A} (xs : list A) : gen W A :=
  Gen (ret match xs with [] => Stop | x :: xs => Yield x (list_gen xs) end).
Definition of_list {W A} (xs : list A) : iterable W A := ret (list_gen xs).

(** [for x in g: ...] with loop state [S]; the body continues with a new state or leaves
    the loop with a value.  [fuel] bounds the number of steps: a loop over an iterator
    may run for ever. *)
Fixpoint for_gen {W A S R} (fuel : nat) (g : gen W A) (s : S) (body : S -> A -> M W (S + R)) : M W (S + R) :=
  match fuel with
  | 0 => raise OutOfFuel
  | Datatypes.S fuel =>
      do st <- step g;
      match st with
      | Stop => ret (inl s)
      | Skip g => for_gen fuel g s body
      | Yield x g => do r <- body s x; match r with inl s => for_gen fuel g s body | inr v => ret (inr v) end
      end
  end.

(** [list(it)] / [tuple(it)] *)
Definition to_list {W A} (fuel : nat) (it : iterable W A) : M W (list A) :=
  do g <- it;
  do r <- for_gen fuel g [] (fun acc x => ret (inl (acc ++ [x])));
  match r with inl acc => ret acc | inr v => match v : Empty_set with end end.

(** An iterator object that several consumers share: its current state is stored in the
    first component of the world ([None]: ended).  [iter()] on it gives itself. *)
CoFixpoint shared_gen {W A} : gen (option (gen W A) * W) A :=
  Gen (fun cw =>
    match fst cw with
    | None => (Ret Stop, cw)
    | Some g =>
        match step g (snd cw) with
        | (Ret (Yield x g), w) => (Ret (Yield x shared_gen), (Some g, w))
        | (Ret (Skip g), w) => (Ret (Skip shared_gen), (Some g, w))
        | (Ret Stop, w) => (Ret Stop, (None, w))
        | (Raise e, w) => (Raise e, (None, w))
        end
    end).
Definition shared {W A} : iterable (option (gen W A) * W) A := ret shared_gen.
