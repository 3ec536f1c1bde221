(** Several iterations of one collection at the same time: a consumer that opens iterators
    and reads from them in any order, and the iterators of Map.  Definitions only. *)
From Coq Require Import List Arith.
From Verif.Model Require Import Base Gen MapTree.
Import ListNotations.
Local Open Scope py_scope.

(** [next(it)] on an iterator (Python; [None] is StopIteration): steps up to the first one
    that is not [Skip]. *)
Fixpoint next_of {W A} (fuel : nat) (g : gen W A) : M W (option (A * gen W A)) :=
  match fuel with
  | 0 => raise OutOfFuel
  | S fuel =>
      do st <- step g;
      match st with Stop => ret None | Skip g => next_of fuel g | Yield x g => ret (Some (x, g)) end
  end.

(** What a consumer does: [iter(it)], which numbers the new iterator; [next] on the iterator
    with a number; something else in between. *)
Inductive event (W : Type) : Type := Open | Next (j : nat) | Other (f : W -> W).
Arguments Open {W}.
Arguments Next {W} j.
Arguments Other {W} f.
Inductive outcome (A : Type) : Type := Opened | Got (x : A) | Ended | Failed (e : exn) | Done | NoSuch.
Arguments Opened {A}.
Arguments Got {A} x.
Arguments Ended {A}.
Arguments Failed {A} e.
Arguments Done {A}.
Arguments NoSuch {A}.

(** The iterator objects; [None] is one that has ended or raised, on which [next] raises
    StopIteration ever after (what [iter] gives is a generator: seq.py:385-388, 420-423,
    map.py:214-216). *)
Definition table (W A : Type) : Type := list (option (gen W A)).
Fixpoint put {X} (j : nat) (x : X) (l : list X) : list X :=
  match l, j with [], _ => [] | _ :: l, 0 => x :: l | y :: l, S j => y :: put j x l end.
Definition happens {W A} (fuel : nat) (it : iterable W A) (e : event W) (t : table W A) (w : W)
    : outcome A * (table W A * W) :=
  match e with
  | Open =>
      match it w with
      | (Ret g, w) => (Opened, (t ++ [Some g], w))
      | (Raise e, w) => (Failed e, (t ++ [None], w))
      end
  | Next j =>
      match nth_error t j with
      | None => (NoSuch, (t, w))
      | Some None => (Ended, (t, w))
      | Some (Some g) =>
          match next_of fuel g w with
          | (Ret (Some (x, g)), w) => (Got x, (put j (Some g) t, w))
          | (Ret None, w) => (Ended, (put j None t, w))
          | (Raise e, w) => (Failed e, (put j None t, w))
          end
      end
  | Other f => (Done, (t, f w))
  end.
Fixpoint consume {W A} (fuel : nat) (it : iterable W A) (es : list (event W)) (t : table W A) (w : W)
    : list (outcome A) * (table W A * W) :=
  match es with
  | [] => ([], (t, w))
  | e :: es =>
      let '(o, (t, w)) := happens fuel it e t w in
      let '(os, s) := consume fuel it es t w in
      (o :: os, s)
  end.

(** [pairs = []; for x in it: for y in it: pairs.append((x, y))] *)
Definition nested {W A} (fuel : nat) (it : iterable W A) : M W (list (A * A)) :=
  do g <- it;
  do r <- for_gen fuel g [] (fun acc x =>
            do g' <- it;
            do r <- for_gen fuel g' acc (fun acc y => ret (inl (acc ++ [(x, y)])));
            match r with inl acc => ret (inl acc) | inr v => match v : Empty_set with end end);
  match r with inl acc => ret acc | inr v => match v : Empty_set with end end.

(** A generator that forwards [next] to a MkIterator (maptree.py:494-506) and hands out
    [pick] of each item. *)
CoFixpoint stack_gen {W K V B} (fuel : nat) (pick : K * V -> B) (stack : list (tree K V)) : gen W B :=
  Gen (fun w =>
    match iter_next fuel stack with
    | Ret None => (Ret Stop, w)
    | Ret (Some (kv, stack)) => (Ret (Yield (pick kv) (stack_gen fuel pick stack)), w)
    | Raise e => (Raise e, w)
    end).
(** map.py:214-216 (Map.__iter__): each call makes a MkIterator of its own. *)
Definition map_iter {W K V} (fuel : nat) (m : tree K V) : iterable W K := fun w =>
  match mk_iterator fuel m with Ret s => (Ret (stack_gen fuel fst s), w) | Raise e => (Raise e, w) end.
(** map.py:146-152 (Map.to_seq), maptree.py:521-532, seq.py:1009-1032: one MkIterator and one
    generator object, made by the call. *)
Definition to_seq_object {W K V} (fuel : nat) (m : tree K V) : M W (gen W (K * V)) := fun w =>
  match mk_iterator fuel m with Ret s => (Ret (stack_gen fuel (fun kv => kv) s), w) | Raise e => (Raise e, w) end.
