(** Model of TypedArray methods whose callbacks may change the array they are called on
    (expression/collections/array.py).  Array.v takes the elements when the method is called;
    here the storage is part of the world and the iterators of list, bytearray and
    array.array look at position 0, 1, 2, ... of what it then holds, until the position is
    past the end.  Definitions only. *)
From Coq Require Import List ZArith Bool.
From Verif.Model Require Import Base PyList OptionResult Array.
Import ListNotations.
Local Open Scope py_scope.

Section Loops.
  Context {W A B S : Type} (peek : W -> list A).
  (** [for x in storage: ...] from position [i]; [fuel] bounds the number of elements *)
  Fixpoint live_in (fuel i : nat) (s : S) (body : S -> A -> M W S) : M W S :=
    match fuel with
    | 0 => raise OutOfFuel
    | Datatypes.S fuel => fun w =>
        match nth_error (peek w) i with
        | None => (Ret s, w)
        | Some x => (do s <- body s x; live_in fuel (Datatypes.S i) s body) w
        end
    end.
  (** a loop over builtins.map(f, storage) or builtins.filter(f, storage), see [for_calls] *)
  Fixpoint live_calls (fuel i : nat) (s : S) (f : A -> M W B) (body : S -> A -> B -> M W S) : M W S :=
    match fuel with
    | 0 => raise OutOfFuel
    | Datatypes.S fuel => fun w =>
        match nth_error (peek w) i with
        | None => (Ret s, w)
        | Some x =>
            match f x w with
            | (Ret y, w) => (do s <- body s x y; live_calls fuel (Datatypes.S i) s f body) w
            | (Raise StopIterationExn, w) => (Ret s, w)
            | (Raise e, w) => (Raise e, w)
            end
        end
    end.
  (** all(predicate(x) for x in storage) *)
  Fixpoint live_all (fuel i : nat) (predicate : A -> M W bool) : M W bool :=
    match fuel with
    | 0 => raise OutOfFuel
    | Datatypes.S fuel => fun w =>
        match nth_error (peek w) i with
        | None => (Ret true, w)
        | Some x => (do b <- in_generator (predicate x); if b : bool then live_all fuel (Datatypes.S i) predicate else ret false) w
        end
    end.
End Loops.

Section Live.
  Context {F U W : Type} `{Floats F} (long64 : bool) (peek : W -> list (pyval F U)) (fuel : nat).
  Notation val := (pyval F U).
  (** array.py:187-189 [map] *)
  Definition live_map (mapping : val -> M W val) : M W (tarray F U) :=
    do ys <- live_calls peek fuel 0 [] mapping (fun acc _ y => ret (acc ++ [y]));
    lift (array_from_initializer long64 (FromIter ys)).
  (** array.py:211-214 [collect]; the arrays that the callback gives are read at once *)
  Definition live_collect (mapping : val -> M W (tarray F U)) : M W (tarray F U) :=
    do ys <- live_calls peek fuel 0 [] mapping (fun acc _ b => ret (acc ++ a_elems b));
    lift (array_from_initializer long64 (FromIter ys)).
  (** array.py:191-209 [choose] *)
  Definition live_choose (chooser : val -> M W (option val)) : M W (tarray F U) :=
    live_collect (fun x => do o <- chooser x; lift (array_from_initializer long64 (FromIter (opt_to_list o)))).
  (** array.py:228-241 [filter]; [tc]: the typecode of the array *)
  Definition live_filter (tc : typecode) (predicate : val -> M W bool) : M W (tarray F U) :=
    do ys <- live_calls peek fuel 0 [] predicate (fun acc x b => ret (if b : bool then acc ++ [x] else acc));
    lift (array_from_typecode long64 tc ys).
  (** array.py:243-264 [fold], 266-278 [forall] *)
  Definition live_fold {S} (folder : S -> val -> M W S) (state : S) : M W S := live_in peek fuel 0 state folder.
  Definition live_forall (predicate : val -> M W bool) : M W bool := live_all peek fuel 0 predicate.
  (** array.py:375-379, 587-589 [sum_by] *)
  Definition live_sum_by (total : list val -> M W val) (projection : val -> M W val) : M W val :=
    do b <- live_map projection; total (a_elems b).
End Live.
